(* Vocabulary for saved models. *)
From Coq Require Import String.
From Verif Require Import PyNum PyList PyMon PyRng M_Matching M_Rule M_Mixing M_Fit M_Json M_Saved S_Json.

Section Saved.
Variable L : learner.
Variable coefs : Mdl L -> option (list Q * Q).
Variable linear : string -> list Q -> Q -> Mdl L.
(* linear models: attributes taken from one model can be set in another, and nothing else matters for predictions *)
Definition linear_models : Prop :=
  (forall c m qi, coefs m = Some qi -> coefs (linear c (fst qi) (snd qi)) = Some qi) /\
  (forall m m' qi x, coefs m = Some qi -> coefs m' = Some qi -> mpred L m x = mpred L m' x).
(* same condition, error, experience, fitted mark and coefficients *)
Definition same_rule (r r' : rule L) : Prop :=
  cond r' = cond r /\
  (exists a a', att r = Some a /\ att r' = Some a' /\ error a' = error a /\ experience a' = experience a /\ M_Rule.is_fitted a' = M_Rule.is_fitted a) /\
  (exists m m' qi, rmodel r = Some m /\ rmodel r' = Some m' /\ coefs m = Some qi /\ coefs m' = Some qi).
End Saved.
Arguments linear_models {L}. Arguments same_rule {L}.
(* the same way of counting experience, without its bounds *)
Definition unbound (c : expcalc) : expcalc :=
  match c with ExpAsIs => ExpAsIs | CapExperience _ _ => CapExperience None None | CapExperienceWithDimensionality _ _ => CapExperienceWithDimensionality None None end.
(* the rules the elitist selects *)
Definition selected {L} (b : elite L) : list (rule L) := compress (epool b) (ebits b).
(* an orderly configuration with this matching type, this mixing model, and classes of the rules' model and fitness that exist *)
Local Open Scope string_scope.
Definition configured (classes : string -> option cinfo) (conf : tree) (t : mtype) (mx : mixing) : Prop :=
  exists ps mc qs u mdl rs o fc gs fit,
    conf = TObj "suprb.suprb.SupRB" ps /\ orderly classes conf = true /\ parametrised classes conf = true /\
    value_at classes conf ["matching_type"] = Some (TObj mc qs) /\ matching_class mc = Ok t /\
    value_at classes conf ["solution_composition"; "init"; "mixing"] = Some u /\ mixing_of u = Ok mx /\
    value_at classes conf ["solution_composition"; "init"; "fitness"] = Some fit /\
    value_at classes conf ["rule_discovery"; "init"; "model"] = Some (TObj mdl rs) /\ build classes mdl [] = Ok o /\
    value_at classes conf ["rule_discovery"; "init"; "fitness"] = Some (TObj fc gs).
