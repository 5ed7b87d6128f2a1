(* The same training data with every sample given k times. *)
From Verif Require Import PyNum PyList PyMon M_Matching M_Rule M_RuleGen M_Mixing M_Discovery S_Units S_Order.

(* np.repeat(l, k, axis=0) *)
Definition repeated {A} (k : nat) (l : list A) : list A := flat_map (fun x => repeat x k) l.
(* equal as numbers *)
Definition same_num (a b : num) : Prop :=
  match a, b with Fin p, Fin q => p == q | PInf, PInf | NInf, NInf | NaN, NaN => True | _, _ => False end.

Section Repeat.
Variables (k : nat) (L : learner).
(* local models for which it makes no difference, and a fitness that depends on the value of the error *)
Record weightless : Prop := {
  wl_model : forall X y x, length X = length y -> mpred L (train L (repeated k X) (repeated k y)) x == mpred L (train L X y) x;
  wl_fitness : forall m e e', e == e' -> same_num (rfitness L m e) (rfitness L m e') }.
(* what a rule shows after being fitted on the data, and on the repeated data: all the same, but k times the experience *)
Record repeated_atts (t t' : atts) : Prop := {
  rt_fitted : is_fitted t' = is_fitted t;
  rt_error : same_num (error t) (error t');
  rt_fitness : same_num (fitness t) (fitness t');
  rt_experience : experience t' == qofnat k * experience t;
  rt_pred : Forall2 Qeq (repeated k (pred t)) (pred t');
  rt_match : match_set t' = repeated k (match_set t) }.
(* the attributes of a rule that was fitted *)
Record proper_atts (t : atts) : Prop := {
  pa_pred : length (pred t) = count_true (match_set t);
  pa_experience : experience t = qofnat (count_true (match_set t));
  pa_error : error t = PInf \/ exists e, error t = Fin e /\ 0 < e }.
Record repeated_rule (r r' : rule L) : Prop := {
  rp_cond : cond r' = cond r;
  rp_model : paired (fun p p' => forall x, mpred L p' x == mpred L p x) (rmodel r) (rmodel r');
  rp_atts : paired repeated_atts (att r) (att r');
  rp_proper : forall t, att r = Some t -> proper_atts t }.
(* what rule discovery is given *)
Record repeated_problem (D D' : denv L) : Prop := {
  rd_X : dX D' = repeated k (dX D);
  rd_y : dy D' = repeated k (dy D);
  rd_pool : Forall2 repeated_rule (dpool D) (dpool D');
  rd_elite : delite D' = delite D;
  rd_mix : dmix D' = dmix D }.
(* no roulette wheel, no limits on the experience, a weight that is not negative *)
Definition plain_mixing (mx : mixing) : Prop := match mfilter mx with RouletteWheel _ => False | _ => True end /\ mexp mx = ExpAsIs /\ 0 <= mweight mx.
Record same_measures (a a' : satts) : Prop := {
  sm_error : serror a' == serror a;
  sm_size : scomplexity a' = scomplexity a /\ sinput_size a' = sinput_size a;
  sm_fitness : same_num (sfitness a) (sfitness a') }.
End Repeat.
