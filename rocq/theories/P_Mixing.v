(* Properties C13 to C17: predictions and measurements of solutions. *)
From Coq Require Import Permutation.
From Verif Require Import PyNum PyList PyMon PyRng M_Matching S_Matching M_Rule S_Rule L_RuleProps M_Mixing S_Mixing
  L_Mixing L_MixingProps.

(* ----- C13: the prediction is the weighted mean of the covering rules ----- *)
Theorem C13_prediction_is_weighted_mean : forall (L : learner) mx X rs g rs' g' dim,
  Forall (fun x => length x = dim) X -> rs <> [] ->
  apply_filter L (mfilter mx) rs g = (Ok rs', g') -> Forall (ready L dim) rs' ->
  exists out, mixing_call L mx X rs false g = (Ok out, g') /\ Forall2 (mixed L mx dim rs') X out.
Proof. exact mixing_call_spec. Qed.
Print Assumptions C13_prediction_is_weighted_mean.
(* rules that matched no training sample and match none of these samples take no part *)
Theorem C13_unmatched_rules_silent : forall (L : learner) mx X rs g rs' g' dim,
  Forall (fun x => length x = dim) X -> rs <> [] ->
  apply_filter L (mfilter mx) rs g = (Ok rs', g') -> Forall (fun r => ready L dim r \/ unheard L dim X r) rs' ->
  exists out, mixing_call L mx X rs false g = (Ok out, g') /\ Forall2 (mixed L mx dim rs') X out.
Proof. exact mixing_call_silent. Qed.
Print Assumptions C13_unmatched_rules_silent.
(* ... and make every prediction fail as soon as they match one of the samples *)
Theorem C13_unmatched_rules_refuse : forall (L : learner) mx X rs g rs' g' dim,
  Forall (fun x => length x = dim) X -> apply_filter L (mfilter mx) rs g = (Ok rs', g') -> rs <> [] ->
  Forall (fun r => ready L dim r \/ untrained L dim r) rs' -> Exists (fun r => untrained L dim r /\ exists x, In x X /\ covers (cond r) x) rs' ->
  mixing_call L mx X rs false g = (Raise NotFittedError, g').
Proof. exact mixing_call_untrained. Qed.
Print Assumptions C13_unmatched_rules_refuse.
Example C13_unmatched_satisfiable :
  let rs := [fitted_rule 0 1 (1#2) 1 4; no_match 5 9; outgrown 0 9] in let mx := mkMixing KeepAll (CapExperience (Some 1) None) 1 in let g := mkRng (fun _ => 0) 0 in
  (Forall (fun r => ready mean_learner 1 r \/ unheard mean_learner 1 [[0]; [2]] r) rs /\
   exists o1 o2, fst (mixing_call mean_learner mx [[0]; [2]] rs false g) = Ok [o1; o2] /\ o1 == 4 /\ o2 == 0) /\
  (Forall (fun r => ready mean_learner 1 r \/ untrained mean_learner 1 r) rs /\ Exists (fun r => untrained mean_learner 1 r /\ exists x, In x [[0]; [7]] /\ covers (cond r) x) rs /\
   fst (mixing_call mean_learner mx [[0]; [7]] rs false g) = Raise NotFittedError).
Proof.
  cbv zeta. split; split.
  - apply Forall_cons; [left; apply fitted_rule_ready; reflexivity|]. apply Forall_cons; [|apply Forall_cons; [left; apply outgrown_ready|apply Forall_nil]].
    right. split; [apply no_match_untrained|]. apply no_match_outside. repeat constructor; eexists; split; reflexivity.
  - do 2 eexists. split; [vm_compute; reflexivity|]. split; reflexivity.
  - apply Forall_cons; [left; apply fitted_rule_ready; reflexivity|]. apply Forall_cons; [right; apply no_match_untrained|apply Forall_cons; [left; apply outgrown_ready|apply Forall_nil]].
  - split; [|vm_compute; reflexivity]. right. left. split; [apply no_match_untrained|]. exists [7]. split; [right; left; reflexivity|]. apply no_match_covers; discriminate.
Qed.
Theorem C13_no_rules_predict_zero : forall (L : learner) mx X cache g,
  mixing_call L mx X [] cache g = (Ok (repeat 0 (length X)), g).
Proof. exact mixing_call_empty. Qed.
Print Assumptions C13_no_rules_predict_zero.
(* with positive weights the prediction lies between the predictions of the covering rules *)
Theorem C13_prediction_between_rules : forall (L : learner) mx dim rs x out a b,
  mixed L mx dim rs x out ->
  (exists r, In r rs /\ covers (cond r) x) ->
  (forall r w, In r rs -> covers (cond r) x -> has_weight L mx dim r w -> 0 < w) ->
  (forall r v, In r rs -> covers (cond r) x -> says L r x v -> a <= v <= b) ->
  a <= out <= b.
Proof. exact mixed_bounds. Qed.
Print Assumptions C13_prediction_between_rules.
(* a sample covered by a single rule gets that rule's prediction *)
Theorem C13_single_rule_decides : forall (L : learner) mx dim rs x out r v,
  mixed L mx dim rs x out ->
  (exists l1 l2, rs = l1 ++ r :: l2 /\ Forall (fun r' => ~ covers (cond r') x) (l1 ++ l2)) ->
  covers (cond r) x -> says L r x v -> (forall w, has_weight L mx dim r w -> ~ w == 0) -> out == v.
Proof. exact mixed_single. Qed.
Print Assumptions C13_single_rule_decides.
Example C13_satisfiable :
  let mx := mkMixing KeepAll ExpAsIs 1 in
  let rs := [fitted_rule 0 1 (1#2) 1 4; fitted_rule 0 2 1 1 1] in let g := mkRng (fun _ => 0) 0 in
  Forall (fun x => length x = 1%nat) [[0]; [2]; [7]] /\ rs <> [] /\
  apply_filter mean_learner (mfilter mx) rs g = (Ok rs, g) /\ Forall (ready mean_learner 1) rs /\
  exists o1 o2 o3, fst (mixing_call mean_learner mx [[0]; [2]; [7]] rs false g) = Ok [o1; o2; o3] /\
    o1 == 3 /\ o2 == 1 /\ o3 == 0.
Proof.
  split; [repeat constructor|]. split; [discriminate|]. split; [reflexivity|].
  split; [repeat constructor; apply fitted_rule_ready; reflexivity|].
  do 3 eexists. split; [vm_compute; reflexivity|]. repeat split.
Qed.

(* ----- C14: on the training data, cached and fresh predictions agree ----- *)
Theorem C14_cache_agrees : forall (L : learner) mx X y rs g,
  length y = length X ->
  Forall (fun r => truthful L (cond r) X y r /\ Forall (fun x => length x = length (bnd (cond r))) X) rs ->
  mixing_call L mx X rs true g = mixing_call L mx X rs false g.
Proof. exact cache_agrees. Qed.
Print Assumptions C14_cache_agrees.
Example C14_satisfiable :
  let m := mkMatching OrderedBound [(0, 1)] in let X := [[0]; [3]; [1]] in let y := [1; 7; 2] in
  let r := snd (rule_fit mean_learner (fresh_rule mean_learner m) X y) in
  (length y = length X /\ truthful mean_learner (cond r) X y r /\ Forall (fun x => length x = length (bnd (cond r))) X) /\
  exists o1 o2 o3, fst (mixing_call mean_learner (mkMixing KeepAll ExpAsIs 1) X [r] true (mkRng (fun _ => 0) 0)) = Ok [o1; o2; o3]
    /\ o1 == 3#2 /\ o2 == 0 /\ o3 == 3#2.
Proof.
  split.
  - cbv zeta. split; [reflexivity|]. split; [|repeat constructor].
    pose (H := L_Rule.fit_fresh_truthful mean_learner (mkMatching OrderedBound [(0, 1)]) [[0]; [3]; [1]] [1; 7; 2]).
    destruct H as (r & E & T); [split; repeat constructor|]. rewrite E. cbn [snd].
    rewrite (t_cond _ _ _ _ _ T). exact T.
  - do 3 eexists. split; [vm_compute; reflexivity|]. repeat split.
Qed.

(* ----- C15: what the prediction does not depend on ----- *)
Theorem C15_order_irrelevant : forall (L : learner) mx X rs rs' g dim,
  mfilter mx = KeepAll -> Permutation rs rs' ->
  Forall (fun x => length x = dim) X -> Forall (ready L dim) rs ->
  exists out out', mixing_call L mx X rs false g = (Ok out, g) /\ mixing_call L mx X rs' false g = (Ok out', g) /\
    Forall2 Qeq out out'.
Proof. exact order_irrelevant. Qed.
Print Assumptions C15_order_irrelevant.
(* keeping the n fittest does not depend on the order when no two fitnesses are equal *)
Theorem C15_nbest_order_irrelevant : forall (L : learner) n (rs rs' : list (rule L)) g,
  Permutation rs rs' ->
  Forall (fun r => exists a, att r = Some a /\ is_nan (fitness a) = false) rs ->
  ForallOrdPairs (fun r1 r2 => forall a1 a2, att r1 = Some a1 -> att r2 = Some a2 ->
    nlt (fitness a1) (fitness a2) = true \/ nlt (fitness a2) (fitness a1) = true) rs ->
  apply_filter L (NBestFitness n) rs g = apply_filter L (NBestFitness n) rs' g.
Proof. exact nbest_order_irrelevant_att. Qed.
Print Assumptions C15_nbest_order_irrelevant.
(* ... and does depend on it when two are equal *)
Theorem C15_nbest_ties_order_refuted : exists mx X rs rs' g out out',
  mfilter mx = NBestFitness 1 /\ Permutation rs rs' /\ Forall (ready mean_learner 1) rs /\
  mixing_call mean_learner mx X rs false g = (Ok out, g) /\ mixing_call mean_learner mx X rs' false g = (Ok out', g) /\
  ~ Forall2 Qeq out out'.
Proof. exact nbest_order_matters. Qed.
Print Assumptions C15_nbest_ties_order_refuted.
(* new pool rules that the genome does not select change nothing *)
Theorem C15_padding_irrelevant : forall (L : learner) mx genome pool new X cache g,
  length genome = length pool ->
  sol_predict L mx (genome ++ repeat false (length new)) (pool ++ new) X cache g = sol_predict L mx genome pool X cache g.
Proof. exact padding_irrelevant. Qed.
Print Assumptions C15_padding_irrelevant.
(* the experience weight cancels out *)
Theorem C15_weight_irrelevant : forall (L : learner) c f ec w X rs g rs' g' dim,
  ~ c == 0 -> rs <> [] ->
  Forall (fun x => length x = dim) X -> apply_filter L f rs g = (Ok rs', g') -> Forall (ready L dim) rs' ->
  (forall r v, In r rs' -> has_weight L (mkMixing f ec w) dim r v -> 0 <= v) ->
  exists out out', mixing_call L (mkMixing f ec w) X rs false g = (Ok out, g') /\
    mixing_call L (mkMixing f ec (c * w)) X rs false g = (Ok out', g') /\ Forall2 Qeq out' out.
Proof. exact weight_irrelevant_mk. Qed.
Print Assumptions C15_weight_irrelevant.
Example C15_satisfiable :
  let mx := mkMixing KeepAll ExpAsIs 2 in
  let rs := [fitted_rule 0 1 (1#2) 1 4; fitted_rule 0 2 1 2 1] in
  Forall (ready mean_learner 1) rs /\
  (forall r v, In r rs -> has_weight mean_learner mx 1 r v -> 0 <= v) /\
  ForallOrdPairs (fun r1 r2 => forall a1 a2, att r1 = Some a1 -> att r2 = Some a2 ->
    nlt (fitness a1) (fitness a2) = true \/ nlt (fitness a2) (fitness a1) = true) rs /\
  length [true; false] = length rs.
Proof.
  split; [repeat constructor; apply fitted_rule_ready; reflexivity|].
  split; [|split; [|reflexivity]].
  - intros r v [<-|[<-|[]]] (a & n & Ha & Hn & [(e & He & Hv) | (He & _)]); injection Ha as <-; try discriminate He; injection He as <-; cbn in Hn; rewrite Hv, Hn; discriminate.
  - constructor; [constructor; [|constructor]|repeat constructor]. intros a1 a2 H1 H2. injection H1 as <-. injection H2 as <-. left; reflexivity.
Qed.

(* ----- C16: the n-best filter ----- *)
Theorem C16_nbest_keeps_fittest_partial : forall (L : learner) n rs g,
  (0 < n)%nat -> Forall (fun r : rule L => exists a, att r = Some a /\ is_nan (fitness a) = false) rs ->
  exists kept dropped, apply_filter L (NBestFitness n) rs g = (Ok kept, g) /\
    Permutation rs (dropped ++ kept) /\ length kept = Nat.min n (length rs) /\
    forall k d ak ad, In k kept -> In d dropped -> att k = Some ak -> att d = Some ad ->
      nlt (fitness ak) (fitness ad) = false /\ nle (fitness ad) (fitness ak) = true.
Proof. exact nbest_spec. Qed.
Print Assumptions C16_nbest_keeps_fittest_partial.
(* n = 0 keeps every rule *)
Theorem C16_zero_refuted : exists rs g,
  rs <> [] /\ apply_filter mean_learner (NBestFitness 0) rs g = (Ok rs, g).
Proof. exact nbest_zero_keeps_all. Qed.
Print Assumptions C16_zero_refuted.
Example C16_satisfiable :
  let rs := [fitted_rule 0 1 1 3 4; fitted_rule 0 2 1 5 1; fitted_rule 0 3 1 4 1] in let g := mkRng (fun _ => 0) 0 in
  (0 < 2)%nat /\ Forall (fun r : rule mean_learner => exists a, att r = Some a /\ is_nan (fitness a) = false) rs /\
  apply_filter mean_learner (NBestFitness 2) rs g = (Ok [fitted_rule 0 3 1 4 1; fitted_rule 0 2 1 5 1], g).
Proof. split; [repeat constructor|]. split; [repeat constructor; eexists; split; reflexivity|reflexivity]. Qed.

(* ----- C17: what fit measures ----- *)
Theorem C17_fit_measures : forall (L : learner) mx sfit genome pool X y g dim rs' g',
  length genome = length pool -> length y = length X -> X <> [] ->
  Forall (fun x => length x = dim) X ->
  Forall (fun r => truthful L (cond r) X y r /\ length (bnd (cond r)) = dim) pool ->
  apply_filter L (mfilter mx) (compress pool genome) g = (Ok rs', g') ->
  exists p a, sol_predict L mx genome pool X false g = (Ok p, g') /\
    sol_fit L mx sfit genome pool X y g = (Ok a, g') /\
    length p = length X /\
    mean_squared y p <= serror a /\ (1#10000) <= serror a /\ (serror a == mean_squared y p \/ serror a == 1#10000) /\
    scomplexity a = length (compress pool genome) /\ sinput_size a = length genome /\
    sfitness a = sfit (serror a) (scomplexity a) (sinput_size a).
Proof. exact sol_fit_spec. Qed.
Print Assumptions C17_fit_measures.
Theorem C17_length_mismatch_raises : forall (L : learner) mx sfit genome (pool : list (rule L)) X y g,
  length genome <> length pool -> sol_fit L mx sfit genome pool X y g = (Raise AssertionError, g).
Proof. exact sol_fit_mismatch. Qed.
Print Assumptions C17_length_mismatch_raises.
Theorem C17_predict_length_mismatch_raises : forall (L : learner) mx genome (pool : list (rule L)) X c g,
  length genome <> length pool -> sol_predict L mx genome pool X c g = (Raise AssertionError, g).
Proof. exact sol_predict_mismatch. Qed.
Print Assumptions C17_predict_length_mismatch_raises.
Example C17_satisfiable :
  let X := [[0]; [1]; [2]] in let y := [1; 3; 7] in
  let r m := snd (rule_fit mean_learner (fresh_rule mean_learner m) X y) in
  let pool := [r (mkMatching OrderedBound [(0, 1)]); r (mkMatching OrderedBound [(1, 2)]); r (mkMatching OrderedBound [(7, 9)])] in
  let g := mkRng (fun _ => 0) 0 in let mx := mkMixing KeepAll ExpAsIs 1 in
  Forall (fun ru => truthful mean_learner (cond ru) X y ru /\ length (bnd (cond ru)) = 1%nat) pool /\
  (exists a, sol_fit mean_learner mx (fun e c n => Fin (e + qofnat c)) [true; false; true] pool X y g = (Ok a, g) /\
     scomplexity a = 2%nat /\ sinput_size a = 3%nat /\ serror a == 17) /\
  apply_filter mean_learner (mfilter mx) (compress pool [true; false; true]) g = (Ok (compress pool [true; false; true]), g).
Proof.
  split; [|split].
  - apply Forall_cons; [|apply Forall_cons; [|apply Forall_cons; [|apply Forall_nil]]]; (split; [|reflexivity]); apply fresh_fit_truthful; repeat constructor.
  - eexists. split; [vm_compute; reflexivity|]. repeat split.
  - reflexivity.
Qed.
