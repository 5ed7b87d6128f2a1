(* Theorems on the random filters and the experience caps of the mixing model (C73). *)
From Coq Require Import Permutation.
From Verif Require Import PyNum PyList PyMon PyRng M_Matching S_Matching M_Rule M_Mixing S_Mixing S_Filters L_RuleProps L_MixingProps L_Filters.

(* ----- C73: the random filter keeps the requested number of different rules, and any of them ----- *)
Theorem C73_random : forall (L : learner) n (rs : list (rule L)) g, exists out g', apply_filter L (NRandom n) rs g = (Ok out, g') /\ some_of L (Nat.min (length rs) n) rs out.
Proof. intros L. exact nrandom_total. Qed.
Print Assumptions C73_random.
Theorem C73_random_any : forall (L : learner) n (rs out : list (rule L)), some_of L (Nat.min (length rs) n) rs out -> exists g g', apply_filter L (NRandom n) rs g = (Ok out, g').
Proof. intros L. exact nrandom_onto. Qed.
Print Assumptions C73_random_any.
(* the roulette keeps the requested number of different rules of positive fitness, and any of them *)
Theorem C73_roulette : forall (L : learner) n (rs good : list (rule L)) g, separated L rs good -> good <> [] -> (Nat.min (length rs) n <= length good)%nat ->
  exists out g', apply_filter L (RouletteWheel n) rs g = (Ok out, g') /\ some_of L (Nat.min (length rs) n) good out.
Proof. intros L. exact roulette_total. Qed.
Print Assumptions C73_roulette.
Theorem C73_roulette_any : forall (L : learner) n (rs good out : list (rule L)), separated L rs good -> good <> [] -> some_of L (Nat.min (length rs) n) good out ->
  exists g g', apply_filter L (RouletteWheel n) rs g = (Ok out, g').
Proof. intros L. exact roulette_onto. Qed.
Print Assumptions C73_roulette_any.
(* rules measured with a fitness of at least zero can always be separated *)
Theorem C73_separable : forall (L : learner) (rs : list (rule L)), Forall (graded L) rs -> exists good, separated L rs good /\ Forall (promising L) good.
Proof. intros L rs H. destruct (graded_separated rs H) as (good & HS). exists good. split; [exact HS|exact (promising_nth _ _ HS)]. Qed.
Print Assumptions C73_separable.
(* the roulette fails when fewer rules than requested have a positive fitness *)
Theorem C73_roulette_too_few : forall (L : learner) n (rs good : list (rule L)) g, separated L rs good -> (length good < Nat.min (length rs) n)%nat ->
  apply_filter L (RouletteWheel n) rs g = (Raise ValueError, g).
Proof. intros L. exact roulette_too_few. Qed.
Print Assumptions C73_roulette_too_few.
(* and when a single rule matched no sample *)
Theorem C73_roulette_unmatched : forall (L : learner) n (rs : list (rule L)) g, Forall (fun r => graded L r \/ unmatched L r) rs -> Exists (unmatched L) rs ->
  apply_filter L (RouletteWheel n) rs g = (Raise ValueError, g).
Proof. intros L. exact roulette_unmatched. Qed.
Print Assumptions C73_roulette_unmatched.
(* so predictions through the roulette do not always exist, although every rule of the solution is measured *)
Theorem C73_always_predicts_refuted : exists mx (rs : list (rule mean_learner)) X, mfilter mx = RouletteWheel 6 /\ Forall (graded mean_learner) rs /\ Forall (ready mean_learner 1) rs /\ Forall (fun x => length x = 1%nat) X /\
  forall g, mixing_call mean_learner mx X rs false g = (Raise ValueError, g).
Proof.
  exists (mkMixing (RouletteWheel 6) ExpAsIs 1), [fitted_rule 0 1 1 3 4; fitted_rule 0 2 1 0 1], [[0]; [1]].
  split; [reflexivity|]. split; [repeat constructor; eexists; eexists; repeat split; discriminate|]. split; [repeat constructor; apply fitted_rule_ready; reflexivity|]. split; [repeat constructor|].
  intros g. cbn [mixing_call mfilter].
  rewrite (roulette_too_few 6 [fitted_rule 0 1 1 3 4; fitted_rule 0 2 1 0 1] [fitted_rule 0 1 1 3 4] g); [reflexivity| |repeat constructor].
  apply sep_take; [eexists; eexists; repeat split|]. apply sep_skip; [eexists; eexists; repeat split|constructor].
Qed.
Print Assumptions C73_always_predicts_refuted.

(* ----- predictions are mixed from the kept rules alone ----- *)
Theorem C73_random_mixed : forall (L : learner) mx X rs g dim n, mfilter mx = NRandom n -> Forall (fun x => length x = dim) X -> rs <> [] -> Forall (ready L dim) rs ->
  exists kept out g', some_of L (Nat.min (length rs) n) rs kept /\ mixing_call L mx X rs false g = (Ok out, g') /\ Forall2 (mixed L mx dim kept) X out.
Proof. intros L. exact nrandom_mixed. Qed.
Print Assumptions C73_random_mixed.
Theorem C73_roulette_mixed : forall (L : learner) mx X rs good g dim n, mfilter mx = RouletteWheel n -> Forall (fun x => length x = dim) X -> rs <> [] -> Forall (ready L dim) rs ->
  separated L rs good -> good <> [] -> (Nat.min (length rs) n <= length good)%nat ->
  exists kept out g', some_of L (Nat.min (length rs) n) good kept /\ mixing_call L mx X rs false g = (Ok out, g') /\ Forall2 (mixed L mx dim kept) X out.
Proof. intros L. exact roulette_mixed. Qed.
Print Assumptions C73_roulette_mixed.
(* a random filter for at least as many rules as there are changes nothing *)
Theorem C73_random_all : forall (L : learner) mx X rs g dim n, mfilter mx = NRandom n -> Forall (fun x => length x = dim) X -> rs <> [] -> Forall (ready L dim) rs -> (length rs <= n)%nat ->
  exists out g', mixing_call L mx X rs false g = (Ok out, g') /\ Forall2 (mixed L mx dim rs) X out.
Proof. intros L. exact nrandom_all. Qed.
Print Assumptions C73_random_all.
(* one for no rules predicts zero, unlike the n-best filter for no rules (C16_zero_refuted) *)
Theorem C73_random_none : forall (L : learner) mx X (rs : list (rule L)) g dim, mfilter mx = NRandom 0 -> Forall (fun x => length x = dim) X -> Forall (ready L dim) rs ->
  exists out g', mixing_call L mx X rs false g = (Ok out, g') /\ length out = length X /\ Forall (fun v => v == 0) out.
Proof. intros L. exact nrandom_zero. Qed.
Print Assumptions C73_random_none.
(* an experience capped at zero predicts zero *)
Theorem C73_capped_away : forall (L : learner) mx dim (rs : list (rule L)) x out lower upper, mixed L mx dim rs x out -> Forall (fun r => forall a, att r = Some a -> 0 <= experience a) rs ->
  (mexp mx = CapExperience lower (Some upper) \/ mexp mx = CapExperienceWithDimensionality lower (Some upper)) -> upper == 0 -> (forall l, lower = Some l -> 0 <= l) -> out == 0.
Proof. intros L. exact capped_away. Qed.
Print Assumptions C73_capped_away.

(* three rules, one of them without fitness: two are kept, the second before the first *)
Example C73_satisfiable :
  let a := fitted_rule 0 1 1 3 4 in let b := fitted_rule 0 2 1 5 1 in let c := fitted_rule 0 3 1 0 7 in let rs := [a; c; b] in
  let g := mkRng (fun i => match i with O => 1 | _ => 0 end) 0 in
  separated mean_learner rs [a; b] /\ (Nat.min (length rs) 2 <= length [a; b])%nat /\ Forall (ready mean_learner 1) rs /\ Forall (graded mean_learner) rs /\
  fst (apply_filter mean_learner (RouletteWheel 2) rs g) = Ok [b; a] /\ fst (apply_filter mean_learner (RouletteWheel 3) rs g) = Raise ValueError /\
  fst (apply_filter mean_learner (NRandom 2) rs g) = Ok [c; a] /\ some_of mean_learner 2 rs [c; b] /\
  fst (mixing_call mean_learner (mkMixing (NRandom 2) (CapExperience None (Some 0)) 1) [[0]; [2]] rs false g) = Ok [0; 0].
Proof.
  cbv zeta. split.
  { apply sep_take; [eexists; eexists; repeat split|]. apply sep_skip; [eexists; eexists; repeat split|]. apply sep_take; [eexists; eexists; repeat split|constructor]. }
  split; [repeat constructor|]. split; [repeat constructor; apply fitted_rule_ready; reflexivity|]. split; [repeat constructor; eexists; eexists; repeat split; discriminate|].
  split; [reflexivity|]. split; [reflexivity|]. split; [reflexivity|]. split; [|reflexivity]. split; [reflexivity|]. exists [fitted_rule 0 1 1 3 4].
  apply Permutation_cons_append.
Qed.
