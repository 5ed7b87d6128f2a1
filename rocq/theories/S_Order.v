(* Two fits that differ only in the scale of the fitness values: what depends on the order alone. *)
From Coq Require Import String.
From Verif Require Import PyNum PyList PyMon PyRng M_Matching M_Rule M_RuleGen M_Mixing M_GenomeOps M_Discovery M_Solution M_Composition M_Fit M_Shipped M_Logging S_Units.

(* fitness values on another scale: the comparisons of any two values come out the same *)
Definition rising (g : num -> num) : Prop := forall a b, nlt (g a) (g b) = nlt a b /\ nle (g a) (g b) = nle a b.

(* ----- rules ----- *)
Section Rules.
Variables (h : num -> num) (L : learner).
(* the same local models, with the fitness of a rule on the scale h *)
Definition on_scale : learner := mkLearner (Mdl L) (train L) (mpred L) (fun m e => h (rfitness L m e)).
Record ranked_atts (t t' : atts) : Prop := {
  ra_fitness : M_Rule.fitness t' = h (M_Rule.fitness t);
  ra_rest : M_Rule.is_fitted t' = M_Rule.is_fitted t /\ error t' = error t /\ experience t' = experience t /\ pred t' = pred t /\ match_set t' = match_set t }.
(* the same rule but for the value of its fitness *)
Record ranked_rule (r : rule L) (r' : rule on_scale) : Prop := {
  rk_cond : cond r' = cond r;
  rk_model : rmodel r' = rmodel r;
  rk_atts : paired ranked_atts (att r) (att r') }.
Record ranked_problem (D : denv L) (D' : denv on_scale) : Prop := {
  rq_data : dX D' = dX D /\ dy D' = dy D;
  rq_pool : Forall2 ranked_rule (dpool D) (dpool D');
  rq_elite : delite D' = delite D;
  rq_mix : dmix D' = dmix D }.
End Rules.
(* a scale that multiplies by a positive number *)
Definition proportional (h : num -> num) : Prop := exists k, 0 < k /\ forall v, h v = nmul (Fin k) v.
(* the roulette wheels use the values as weights, so for them the ratios have to be kept *)
Definition by_rank (h : num -> num) (s : rselection) : Prop := match s with RRoulette => proportional h | _ => True end.
Definition fair_mixing (h : num -> num) (mx : mixing) : Prop := match mfilter mx with RouletteWheel _ => proportional h | _ => True end.
Definition ordinal (s : selection) : Prop := match s with SelRoulette => False | _ => True end.

(* ----- solutions ----- *)
(* the same measurements but for the value of the fitness *)
Record ranked_satts (g : num -> num) (a a' : satts) : Prop := {
  rs_fitness : sfitness a' = g (sfitness a);
  rs_same : serror a' = serror a /\ scomplexity a' = scomplexity a /\ sinput_size a' = sinput_size a }.
(* R relates the measurements of one run to those of another *)
Section Solutions.
Variable R : satts -> satts -> Prop.
(* which of two solutions is fitter comes out the same *)
Definition comparable : Prop := forall a a' b b', R a a' -> R b b' -> nlt (sfitness a') (sfitness b') = nlt (sfitness a) (sfitness b).
Record ranked_sol {K} (o o' : sol K) : Prop := {
  ro_same : gref o' = gref o /\ sext o' = sext o;
  ro_atts : paired R (satt o) (satt o') }.
(* the same genomes, the same solutions, the same random numbers to come *)
Record ranked_heap {K} (s s' : hst K) : Prop := {
  rh_same : garr s' = garr s /\ hrng s' = hrng s;
  rh_sols : Forall2 ranked_sol (sols s) (sols s') }.
(* pools of the same size on which every genome has related measurements *)
Record ranked_task {L L'} (E : env L) (E' : env L') : Prop := {
  rt_size : length (M_Solution.epool E) = length (M_Solution.epool E');
  rt_measured : forall bits, alike R (sol_fit L (M_Solution.emix E) (efit E) bits (M_Solution.epool E) (eX E) (ey E))
                                     (sol_fit L' (M_Solution.emix E') (efit E') bits (M_Solution.epool E') (eX E') (ey E')) }.
End Solutions.
(* measurements that make no difference to early stopping *)
Definition stops_alike (R : satts -> satts -> Prop) : Prop := forall a a' d p, R a a' -> nlt d (nsub (sfitness a') p) = nlt d (nsub (sfitness a) p).
(* an optimizer that asks only which of two solutions is fitter *)
Definition ranks_only {K} (O : optimizer K) : Prop :=
  forall R L L' (E : env L) (E' : env L'), comparable R -> ranked_task R E E' -> forall ini pop st,
    tandem (ranked_heap R) eq (orun O L E ini pop st) (orun O L' E' ini pop st).
(* an optimizer that asks only for the ratios of fitness values *)
Definition scales_only {K} (O : optimizer K) : Prop :=
  forall g L L' (E : env L) (E' : env L'), proportional g -> ranked_task (ranked_satts g) E E' -> forall ini pop st,
    tandem (ranked_heap (ranked_satts g)) eq (orun O L E ini pop st) (orun O L' E' ini pop st).
Definition suits {K} (g : num -> num) (O : optimizer K) : Prop := ranks_only O \/ proportional g /\ scales_only O.

(* ----- estimators ----- *)
(* rr relates rules, R the measurements of solutions, FM the mixing models *)
Section Estimators.
Context {L L' : learner}.
Variables (rr : rule L -> rule L' -> Prop) (R : satts -> satts -> Prop) (FM : mixing -> mixing -> Prop).
Definition like_elite (b : elite L) (b' : elite L') : Prop :=
  ebits b' = ebits b /\ FM (M_Fit.emix b) (M_Fit.emix b') /\ Forall2 rr (M_Fit.epool b) (M_Fit.epool b') /\ R (eatt b) (eatt b').
Definition like_model (m : model L) (m' : model L') : Prop :=
  match m, m' with Learned b, Learned b' => like_elite b b' | Placeholder, Placeholder => True | _, _ => False end.
(* the same estimator up to rr and R *)
Record like_estimator {D C G D' C' G'} (e : est (L := L) D C G) (e' : est (L := L') D' C' G') : Prop := {
  rx_step : step e' = step e /\ counter e' = counter e /\ previous e' = previous e;
  rx_status : is_error e' = is_error e /\ M_Fit.is_fitted e' = M_Fit.is_fitted e;
  rx_elitist : paired like_model (M_Fit.elitist e) (M_Fit.elitist e');
  rx_pool : Forall2 rr (M_Fit.pool e) (M_Fit.pool e');
  rx_seeds : dseeds e' = dseeds e /\ cseeds e' = cseeds e }.
(* loggers that succeed and fail alike on the data sets (X, y) and (X', y'); RL relates what they have written *)
Record like_logger (X : matrix) (y : targets) (X' : matrix) (y' : targets) (G : logger L) (G' : logger L') (RL : lst G -> lst G' -> Prop) : Prop := {
  rg_init : alike_res RL (linit G) (linit G');
  rg_iteration : forall i pool pool' pop pop' b b' l l', Forall2 rr pool pool' -> alike_res (Forall2 R) pop pop' -> alike_res (paired like_elite) b b' -> RL l l' ->
    alike_res RL (literation G X y i pool pop b l) (literation G' X' y' i pool' pop' b' l');
  rg_final : forall pool pool' m m' l l', Forall2 rr pool pool' -> like_model m m' -> RL l l' -> alike_res RL (lfinal G X y pool m l) (lfinal G' X' y' pool' m' l') }.
End Estimators.
(* the same estimator but for the values of the fitness; the mixing model does not depend on them *)
Definition same_fair (h : num -> num) (m m' : mixing) : Prop := m' = m /\ fair_mixing h m.
Definition ranked_elite h g L := like_elite (ranked_rule h L) (ranked_satts g) (same_fair h).
Definition ranked_model h g L := like_model (ranked_rule h L) (ranked_satts g) (same_fair h).
Definition ranked_estimator h g L {D C G D' C' G'} := like_estimator (ranked_rule h L) (ranked_satts g) (same_fair h) (D := D) (C := C) (G := G) (D' := D') (C' := C') (G' := G').
Definition ranked_logger h g L (G : logger L) (G' : logger (on_scale h L)) (RL : lst G -> lst G' -> Prop) : Prop := forall X y, like_logger (ranked_rule h L) (ranked_satts g) (same_fair h) X y X y G G' RL.
(* early stopping compares improvements with a number, so it is switched off *)
Definition never_stops (k : call) : Prop := (patience (cparams k) <= 0)%Z.
(* what the default logger writes: the same keys in the same order, and the same values except under the names of the fitness *)
Definition of_fitness (name : string) : bool := prefix "pool_fitness" name || prefix "population_fitness" name || prefix "elitist_fitness" name.
Definition same_metrics : metrics -> metrics -> Prop := Forall2 (fun p p' => fst p' = fst p /\ (of_fitness (fst (fst p)) = false -> snd p' = snd p)).
