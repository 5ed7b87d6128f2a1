(* The same learning problem with the features measured in other units: every feature t becomes a * t + b, with one factor for all features and a
   shift for each. *)
From Verif Require Import PyNum PyList PyMon PyRng M_Matching M_Rule M_RuleGen M_Mixing M_Discovery M_Novelty M_Solution M_Composition M_Fit M_Shipped.

Inductive each3 {A B C} (R : A -> B -> C -> Prop) : list A -> list B -> list C -> Prop :=
| each3_nil : each3 R [] [] []
| each3_cons a b c l m n : R a b c -> each3 R l m n -> each3 R (a :: l) (b :: m) (c :: n).
(* two computations that fail alike, or succeed with related results; they end in the same state *)
Definition alike {S A B} (R : A -> B -> Prop) (m : St S A) (m' : St S B) : Prop :=
  forall s, match m s, m' s with
            | (Ok x, s1), (Ok y, s2) => s1 = s2 /\ R x y
            | (Raise e, s1), (Raise e', s2) => s1 = s2 /\ e = e'
            | _, _ => False
            end.
(* the same for computations on different states, related by P before and after *)
Definition tandem {S S' A B} (P : S -> S' -> Prop) (R : A -> B -> Prop) (m : St S A) (m' : St S' B) : Prop :=
  forall s s', P s s' -> match m s, m' s' with
    | (Ok x, s1), (Ok y, s2) => P s1 s2 /\ R x y
    | (Raise e, s1), (Raise e', s2) => P s1 s2 /\ e = e'
    | _, _ => False
    end.
Definition alike_res {A B} (R : A -> B -> Prop) (r : res A) (r' : res B) : Prop :=
  match r, r' with Ok x, Ok y => R x y | Raise e, Raise e' => e = e' | _, _ => False end.
Definition paired {A B} (R : A -> B -> Prop) (o : option A) (o' : option B) : Prop := match o, o' with Some x, Some y => R x y | None, None => True | _, _ => False end.

Section Units.
Variables (a : Q) (shifts : list Q).
Definition in_units (b t t' : Q) : Prop := t' == a * t + b.
Definition same_point : row -> row -> Prop := each3 in_units shifts.
Definition same_limits (b : Q) (l l' : Q * Q) : Prop := in_units b (fst l) (fst l') /\ in_units b (snd l) (snd l').
Definition same_bounds : bounds -> bounds -> Prop := each3 same_limits shifts.
(* the same ordered bounds in both units *)
Definition rescaled_box (m m' : matching) : Prop := mt m = OrderedBound /\ mt m' = OrderedBound /\ same_bounds (bnd m) (bnd m').
(* distances are only multiplied *)
Definition distance (s s' : Q) : Prop := s' == a * s.
Definition rescaled_constraint (c c' : constraint) : Prop :=
  match c, c' with
  | Clip s, Clip s' => same_bounds s s'
  | MinRange r, MinRange r' => distance r r'
  | CombinedConstraint r s, CombinedConstraint r' s' => distance r r' /\ same_bounds s s'
  | _, _ => False
  end.
Definition rescaled_sigma (s s' : sigma) : Prop := match s, s' with Scalar s, Scalar s' => distance s s' | Pair _ _, Pair _ _ => True | _, _ => False end.
Definition rescaled_init (i i' : rule_init) : Prop :=
  match i, i' with MeanInit, MeanInit => True | NormalInit s, NormalInit s' => rescaled_sigma s s' | HalfnormInit s, HalfnormInit s' => distance s s' | _, _ => False end.
Definition rescaled_operator (m m' : mutation) : Prop :=
  match m, m' with
  | MutNormal s, MutNormal s' | MutHalfnorm s, MutHalfnorm s' | MutHalfnormIncrease s, MutHalfnormIncrease s' | MutUniform s, MutUniform s' | MutUniformIncrease s, MutUniformIncrease s' => rescaled_sigma s s'
  | _, _ => False
  end.
Definition rescaled_mutation (m m' : rmutation) : Prop :=
  match m, m' with Mut m, Mut m' => rescaled_operator m m' | MutRange m l h, MutRange m' l' h' => rescaled_operator m m' /\ distance l l' /\ distance h h' | _, _ => False end.
Record rescaled_settings (c c' : dcfg) : Prop := {
  set_type : d_type c = OrderedBound;
  set_type' : d_type c' = OrderedBound;
  set_init : rescaled_init (d_init c) (d_init c');
  set_bounds : rescaled_constraint (d_constraint c) (d_constraint c');
  set_accept : d_accept c = d_accept c';
  set_origin : d_origin c = d_origin c' }.

(* L and L': the local model and the fitness in the old and the new units *)
Variables L L' : learner.
Record unitless : Prop := {
  ul_model : forall X X' y x x', Forall2 same_point X X' -> same_point x x' -> mpred L' (train L' X' y) x' = mpred L (train L X y) x;
  ul_fitness : forall m m' e, rescaled_box m m' -> rfitness L' m' e = rfitness L m e }.
Definition rescaled_model (p : option (Mdl L)) (p' : option (Mdl L')) : Prop :=
  match p, p' with Some p, Some p' => forall x x', same_point x x' -> mpred L' p' x' = mpred L p x | None, None => True | _, _ => False end.
(* the same rule: what was measured is identical *)
Record rescaled_rule (r : rule L) (r' : rule L') : Prop := {
  rr_box : rescaled_box (cond r) (cond r');
  rr_model : rescaled_model (rmodel r) (rmodel r');
  rr_atts : att r = att r' }.
Record rescaled_problem (D : denv L) (D' : denv L') : Prop := {
  rp_X : Forall2 same_point (dX D) (dX D');
  rp_y : dy D = dy D';
  rp_pool : Forall2 rescaled_rule (dpool D) (dpool D');
  rp_elite : delite D = delite D';
  rp_mix : dmix D = dmix D' }.

(* the estimator: a whole fit in the old and in the new units *)
Definition rescaled_given (k k' : given_constraint) : Prop :=
  let opt b b' := match b, b' with Some b, Some b' => same_bounds b b' | None, None => True | _, _ => False end in
  match k, k' with
  | GivenClip b, GivenClip b' => opt b b'
  | GivenMinRange r, GivenMinRange r' => distance r r'
  | GivenCombined r b, GivenCombined r' b' => distance r r' /\ opt b b'
  | _, _ => False
  end.
(* everything but the constraint, which fit assigns *)
Record rescaled_free (c c' : dcfg) : Prop := {
  free_type : d_type c = OrderedBound;
  free_type' : d_type c' = OrderedBound;
  free_init : rescaled_init (d_init c) (d_init c');
  free_accept : d_accept c = d_accept c';
  free_origin : d_origin c = d_origin c' }.
Record rescaled_es (c c' : escfg) : Prop := {
  ese_free : rescaled_free (es_d c) (es_d c');
  ese_mut : rescaled_mutation (es_mut c) (es_mut c');
  ese_rest : es_iter c = es_iter c' /\ es_lambda c = es_lambda c' /\ es_operator c = es_operator c' /\ es_delay c = es_delay c' /\ es_sel c = es_sel c' }.
Record rescaled_rs (c c' : rscfg) : Prop := {
  rsr_free : rescaled_free (rs_d c) (rs_d c');
  rsr_rest : rs_generated c = rs_generated c' /\ rs_sel c = rs_sel c' }.
Record rescaled_ns (c c' : nscfg) : Prop := {
  nse_free : rescaled_free (ns_d c) (ns_d c');
  nse_mut : rescaled_mutation (ns_mut c) (ns_mut c');
  nse_size : ns_iter c = ns_iter c' /\ ns_mu c = ns_mu c' /\ ns_lambda c = ns_lambda c' /\ ns_roh c = ns_roh c' /\ ns_elitists c = ns_elitists c' /\ ns_rate c = ns_rate c' /\ ns_sel c = ns_sel c';
  nse_novelty : ns_use_pop c = ns_use_pop c' /\ ns_calc c = ns_calc c' /\ ns_type c = ns_type c' /\ ns_archive c = ns_archive c' /\ ns_k c = ns_k c' }.
(* a rule object of novelty search: distances, index and score are identical, too *)
Record rescaled_cell (c : cell L) (c' : cell L') : Prop := {
  rc_rule : rescaled_rule (crule c) (crule c');
  rc_marks : cdist c = cdist c' /\ cidx c = cidx c' /\ cscore c = cscore c' }.
Definition rescaled_model_of (m : option (model L)) (m' : option (model L')) : Prop :=
  match m, m' with
  | Some (Learned b), Some (Learned b') => ebits b = ebits b' /\ Forall2 rescaled_rule (M_Fit.epool b) (M_Fit.epool b') /\ M_Fit.emix b = M_Fit.emix b' /\ eatt b = eatt b'
  | Some Placeholder, Some Placeholder | None, None => True
  | _, _ => False
  end.
(* two estimators that learned the same *)
Record rescaled_estimator {D C G D' C' G'} (e : est (L := L) D C G) (e' : est (L := L') D' C' G') : Prop := {
  re_step : step e = step e';
  re_stop : counter e = counter e' /\ previous e = previous e';
  re_error : is_error e = is_error e';
  re_fitted : M_Fit.is_fitted e = M_Fit.is_fitted e';
  re_elitist : rescaled_model_of (M_Fit.elitist e) (M_Fit.elitist e');
  re_pool : Forall2 rescaled_rule (M_Fit.pool e) (M_Fit.pool e');
  re_seeds : dseeds e = dseeds e' /\ cseeds e = cseeds e' }.
(* loggers that succeed and fail alike; R relates what they have written *)
Definition rescaled_best (b : res (option (elite L))) (b' : res (option (elite L'))) : Prop :=
  alike_res (fun b b' => rescaled_model_of (option_map Learned b) (option_map Learned b')) b b'.
Record rescaled_logger (X X' : matrix) (y : targets) (G : logger L) (G' : logger L') (R : lst G -> lst G' -> Prop) : Prop := {
  rl_init : alike_res R (linit G) (linit G');
  rl_iteration : forall i pool pool' pop b b' l l', Forall2 rescaled_rule pool pool' -> rescaled_best b b' -> R l l' ->
    alike_res R (literation G X y i pool pop b l) (literation G' X' y i pool' pop b' l');
  rl_final : forall pool pool' m m' l l', Forall2 rescaled_rule pool pool' -> rescaled_model_of (Some m) (Some m') -> R l l' ->
    alike_res R (lfinal G X y pool m l) (lfinal G' X' y pool' m' l') }.
(* the same call of fit *)
Definition same_call (k k' : call) : Prop := cparams k = cparams k' /\ cos k = cos k' /\ cclean k = cclean k' /\ Forall2 same_point (cX k) (cX k') /\ cy k = cy k'.
End Units.

(* what solution composition can observe of the rules: their measured values, and how a genome is measured *)
Record same_task {L L'} (E : env L) (E' : env L') : Prop := {
  st_rules : map att (M_Solution.epool E) = map att (M_Solution.epool E');
  st_measured : forall bits g, sol_fit L (M_Solution.emix E) (efit E) bits (M_Solution.epool E) (eX E) (ey E) g = sol_fit L' (M_Solution.emix E') (efit E') bits (M_Solution.epool E') (eX E') (ey E') g }.
(* an optimizer that observes no more *)
Definition impartial {K} (O : optimizer K) : Prop :=
  forall L L' (E : env L) (E' : env L'), same_task E E' -> forall ini pop st, alike eq (orun O L E ini pop st) (orun O L' E' ini pop st).
