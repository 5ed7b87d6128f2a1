(* C64, C65: what rounding does to the conditions of rules and to predictions. *)
From Verif Require Import PyNum PyFloat PyList PyMon M_Matching M_Float S_Matching S_Float L_Num L_Float L_FloatProps L_FloatMix L_FloatTau L_FloatEx.

(* ----- C64: rounding does not lose samples ----- *)
(* Conditions with explicit bounds only compare numbers: double precision answers exactly as exact numbers do, also after clipping. *)
Theorem C64_comparisons_exact :
  (forall t bs x, t = OrderedBound \/ t = UnorderedBound -> frow_matches t (map inj bs) (map Fin x) = row_matches t bs x) /\
  (forall m space, fclipped (mkF (mt m) (map inj (bnd m))) (map inj space) = let c := clip m space in mkF (mt c) (map inj (bnd c))).
Proof. exact (conj (fun t bs x => row_matches_exact t bs x) clipped_exact). Qed.
Print Assumptions C64_comparisons_exact.
Example C64_comparisons_exact_ex : frow_matches OrderedBound (map inj [(0, 1 # 2)]) (map Fin [1 # 2]) = true /\ frow_matches OrderedBound (map inj [(0, 1 # 2)]) (map Fin [3 # 4]) = false.
Proof. split; vm_compute; reflexivity. Qed.

(* Enforcing the minimum width never takes a sample away. *)
Theorem C64_min_range_keeps_samples : forall m mr x,
  fmt m = OrderedBound \/ fmt m = CenterSpread -> Forall finite_pair (fbnd m) -> length (fbnd m) = length x ->
  frow_matches (fmt m) (fbnd m) x = true -> frow_matches (fmt m) (fbnd (fmin_range m mr)) x = true.
Proof. exact min_range_keeps. Qed.
Print Assumptions C64_min_range_keeps_samples.
Example C64_min_range_keeps_samples_ex :
  let m := mkF OrderedBound [(digits (1 # 10), digits (1 # 10)); (digits (-3 # 10), digits (2 # 10))] in
  Forall finite_pair (fbnd m) /\ frow_matches OrderedBound (fbnd m) [digits (1 # 10); Fin 0] = true /\ fbnd (fmin_range m range1) <> fbnd m.
Proof. exact min_range_ex. Qed.

(* Growing a rule (HalfnormIncrease, UniformIncrease) never takes a sample away, whatever non-negative amounts are drawn. *)
Theorem C64_increase_keeps_samples : forall m noise x,
  fmt m = OrderedBound -> Forall finite_pair (fbnd m) -> Forall (fun n => amount (fst n) /\ amount (snd n)) noise ->
  length noise = length (fbnd m) -> length (fbnd m) = length x ->
  frow_matches (fmt m) (fbnd m) x = true -> frow_matches (fmt m) (fbnd (fincrease m noise)) x = true.
Proof. exact increase_keeps_f. Qed.
Print Assumptions C64_increase_keeps_samples.
Example C64_increase_keeps_samples_ex :
  fbnd (fincrease (mkF OrderedBound [(digits (1 # 10), digits (2 # 10))]) [(digits (1 # 30), digits (1 # 30))]) <> [(digits (1 # 10), digits (2 # 10))] /\
  frow_matches OrderedBound [(digits (1 # 10), digits (2 # 10))] [digits (15 # 100)] = true.
Proof. exact increase_ex. Qed.

(* A freshly made and constrained rule matches the sample it was made around, whatever non-negative amounts are drawn. *)
Theorem C64_fresh_rule_matches_origin : forall x mr space,
  Forall finite x -> Forall2 within space x ->
  frow_matches OrderedBound (fbnd (fconstrain mr space (fmean_init x))) x = true /\
  (forall down up, Forall amount down -> Forall amount up -> length down = length x -> length up = length x ->
    frow_matches OrderedBound (fbnd (fconstrain mr space (fhalfnorm_init x down up))) x = true).
Proof. intros x mr space F S. exact (conj (mean_covers x mr space F S) (fun down up A B LA LB => fresh_covers x down up mr space F A B LA LB S)). Qed.
Print Assumptions C64_fresh_rule_matches_origin.
Example C64_fresh_rule_matches_origin_ex : Forall finite sample1 /\ Forall2 within space1 sample1.
Proof. exact fresh_ex. Qed.

(* A constrained rule lies in the region, with its bounds in order. *)
Theorem C64_constrained_in_region : forall mr space bs,
  Forall finite_pair bs -> Forall (fun b => nle (fst b) (snd b) = true) bs -> Forall (fun s => nle (fst s) (snd s) = true) space -> length space = length bs ->
  Forall2 (fun s b => nle (fst s) (fst b) = true /\ nle (fst b) (snd b) = true /\ nle (snd b) (snd s) = true) space (fbnd (fconstrain mr space (mkF OrderedBound bs))).
Proof. exact constrained_region. Qed.
Print Assumptions C64_constrained_in_region.
Example C64_constrained_in_region_ex : Forall finite_pair space1 /\ Forall (fun b => nle (fst b) (snd b) = true) space1 /\
  fbnd (fconstrain range1 [(Fin 0, Fin 1); (Fin 0, Fin 1)] (mkF OrderedBound space1)) = [(Fin 0, Fin 1); (Fin 0, Fin 1)].
Proof. exact region_ex. Qed.

(* A number drawn uniformly between two doubles is not outside of them, although the formula rounds three times. *)
Theorem C64_uniform_inside : forall low high u,
  finite low -> finite high -> nle low high = true -> is_fin (fsub high low) = true -> nle (Fin 0) u = true -> nle u (Fin (1 - (2 # 1) ^ (-53))) = true ->
  within (low, high) (funiform low high u).
Proof. exact uniform_inside. Qed.
Print Assumptions C64_uniform_inside.
Example C64_uniform_inside_ex : finite (digits (1 # 10)) /\ finite (digits (7 # 10)) /\ nle (digits (1 # 10)) (digits (7 # 10)) = true /\
  is_fin (fsub (digits (7 # 10)) (digits (1 # 10))) = true /\ nlt (digits (1 # 10)) (funiform (digits (1 # 10)) (digits (7 # 10)) (digits (999 # 1000))) = true.
Proof. exact uniform_ex. Qed.

(* Full property: after MinRange(mr) every interval is at least mr wide.  Proved: up to a relative error of 2^-53 of the bounds. *)
Theorem C64_min_range_width_partial : forall lo hi mr l h,
  double (Fin lo) -> double (Fin hi) -> double (Fin mr) -> (2 # 1) ^ (-1021) <= mr -> lo <= hi ->
  fmin_range_pair OrderedBound (Fin mr) (Fin lo, Fin hi) = (Fin l, Fin h) ->
  mr - (2 # 1) ^ (-53) * (Qabs lo + Qabs hi + mr) <= h - l.
Proof. exact min_range_width. Qed.
Print Assumptions C64_min_range_width_partial.
Example C64_min_range_width_partial_ex : exists lo mr, double (Fin lo) /\ double (Fin mr) /\ (2 # 1) ^ (-1021) <= mr /\
  fmin_range_pair OrderedBound (Fin mr) (Fin lo, Fin lo) <> (Fin lo, Fin lo).
Proof. exact width_ex. Qed.

(* For large feature values the minimum width is absorbed: a rule around 10^10 stays a single point under the default minimum range 10^-6. *)
Theorem C64_min_range_width_refuted : exists b mr, finite_pair b /\ finite mr /\ nlt (Fin 0) mr = true /\ nle (fst b) (snd b) = true /\
  nlt (fwidth OrderedBound (fmin_range_pair OrderedBound mr b)) mr = true /\ fmin_range_pair OrderedBound mr b = b.
Proof. exact width_absorbed. Qed.
Print Assumptions C64_min_range_width_refuted.

(* A MinPercentage condition that takes all of the way from its lower bound to 1 can miss a sample at 1. *)
Theorem C64_full_percentage_refuted : exists lower x, finite lower /\ finite x /\ nle (Fin (-(1))) lower = true /\ nle lower x = true /\ nle x (Fin 1) = true /\
  frow_matches MinPercentage [(lower, Fin 1)] [x] = false.
Proof. exact percentage_refuted. Qed.
Print Assumptions C64_full_percentage_refuted.

(* ----- C65: predictions in double precision ----- *)
(* The prediction for a sample is close to the weighted mean of the predictions of the rules that match it. *)
Theorem C65_close_to_weighted_mean : forall rules M,
  Forall moderate rules -> (Z.of_nat (length rules) <= 2 ^ 50)%Z -> voting rules <> [] -> Forall (fun v => Qabs (fst v) <= M) (voting rules) ->
  exists out, fmix (map given rules) = Fin out /\
    Qabs (out - weighted_mean (voting rules)) <= (6 * inject_Z (Z.of_nat (length rules)) + 5) * (2 # 1) ^ (-53) * M + (2 # 1) ^ (-1075).
Proof. exact mix_close. Qed.
Print Assumptions C65_close_to_weighted_mean.
Example C65_close_to_weighted_mean_ex : Forall moderate rules1 /\ voting rules1 <> [] /\ Forall (fun v => Qabs (fst v) <= 1) (voting rules1).
Proof. exact mix_ex. Qed.

(* Full property: the prediction lies between the smallest and the largest prediction of the matching rules.  Proved: up to rounding errors. *)
Theorem C65_between_partial : forall rules lo hi M,
  Forall moderate rules -> (Z.of_nat (length rules) <= 2 ^ 50)%Z -> voting rules <> [] -> Forall (fun v => lo <= fst v <= hi) (voting rules) -> - M <= lo -> hi <= M ->
  exists out, fmix (map given rules) = Fin out /\
    let slack := (6 * inject_Z (Z.of_nat (length rules)) + 5) * (2 # 1) ^ (-53) * M + (2 # 1) ^ (-1075) in lo - slack <= out <= hi + slack.
Proof. exact mix_between. Qed.
Print Assumptions C65_between_partial.
Example C65_between_partial_ex : Forall moderate rules1 /\ voting rules1 <> [] /\ Forall (fun v => -(1) <= fst v <= 1) (voting rules1).
Proof. exact between_ex. Qed.

(* The weight of a rule is close to experience * weight / error. *)
Theorem C65_weight_close : forall e n w, usual e -> usual n -> usual w ->
  exists t, ftau (Fin e) (Fin n) (Fin w) = Fin t /\ dyadic t /\ (2 # 1) ^ (-100) <= t <= (2 # 1) ^ 100 /\ Qabs (t - n * w / e) <= 4 * (2 # 1) ^ (-53) * (n * w / e).
Proof. exact tau_close. Qed.
Print Assumptions C65_weight_close.
(* So the prediction is close to the mean weighted with the exact weights. *)
Theorem C65_close_to_exact : forall vs M,
  Forall usual_voter vs -> (Z.of_nat (length vs) <= 2 ^ 50)%Z -> voting (map exact_vote vs) <> [] -> Forall (fun v => Qabs (fst v) <= M) (voting (map exact_vote vs)) ->
  exists out, fmix (map (fun v => (option_map Fin (v_says v), ftau (Fin (v_error v)) (Fin (v_experience v)) (Fin (v_weight v)))) vs) = Fin out /\
    Qabs (out - weighted_mean (voting (map exact_vote vs))) <= (6 * inject_Z (Z.of_nat (length vs)) + 14) * (2 # 1) ^ (-53) * M + (2 # 1) ^ (-1075).
Proof. exact voters_close. Qed.
Print Assumptions C65_close_to_exact.
Example C65_close_to_exact_ex : let vs := [mkVoter (Some (7 # 10)) (1 # 3) 12 1; mkVoter None 1 2 1; mkVoter (Some (-(3 # 4))) (1 # 10000) 3 (1 # 2)] in
  Forall usual_voter vs /\ voting (map exact_vote vs) = [(7 # 10, 12 * 1 / (1 # 3)); (-(3 # 4), 3 * (1 # 2) / (1 # 10000))] /\ Forall (fun v => Qabs (fst v) <= 1) (voting (map exact_vote vs)).
Proof. exact voters_ex. Qed.

(* A sample matched by a single rule need not get that rule's prediction, only its neighbour: 0.7 becomes the next larger double. *)
Theorem C65_single_rule_refuted : exists p error experience weight, finite p /\ finite error /\ finite experience /\ finite weight /\
  nle (round (Fin (1 # 10000))) error = true /\
  nlt p (fmix [(Some p, ftau error experience weight)]) = true.
Proof. exact single_rule_refuted. Qed.
Print Assumptions C65_single_rule_refuted.

(* Huge targets: the error of a rule overflows, its weight becomes 0, and the prediction is 0 although the rule predicts something else. *)
Theorem C65_huge_targets_refuted : exists y p, Forall finite y /\ Forall finite p /\ length y = length p /\
  Forall (fun v => nlt (Fin 0) v = true) p /\
  Forall (fun v => fmix [(Some v, ftau (ferror y p) (Fin (qofnat (length y))) (Fin 1))] = Fin 0) p.
Proof. exact huge_refuted. Qed.
Print Assumptions C65_huge_targets_refuted.
