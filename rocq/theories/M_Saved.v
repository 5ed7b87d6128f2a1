(* Model of suprb/json.py, second part: dump and load.  The configuration of the estimator is a tree as in M_Json.
   Simplification: every rule has the same input space, which is not part of the model's rules. *)
From Coq Require Import String.
From Verif Require Import PyNum PyList PyMon PyRng M_Matching M_Rule M_RuleGen M_Mixing M_Fit M_Json.
Local Open Scope string_scope.

(* 114-124 _convert_rule_to_json; the only attribute of a matching function is its bounds *)
Record saved_rule : Type := mkSaved { s_error : num; s_experience : Q; s_bounds : bounds; s_fitted : bool; s_coef : list Q; s_intercept : Q }.
(* 27-42: elitist (complexity, error, fitness), config, pool *)
Record file : Type := mkFile { f_elitist : Q * Q * num; f_config : list (string * jv); f_pool : list saved_rule }.

(* the classes of rule/matching.py *)
Definition matching_class (c : string) : res mtype :=
  if String.eqb c "suprb.rule.matching.OrderedBound" then Ok OrderedBound
  else if String.eqb c "suprb.rule.matching.UnorderedBound" then Ok UnorderedBound
  else if String.eqb c "suprb.rule.matching.CenterSpread" then Ok CenterSpread
  else if String.eqb c "suprb.rule.matching.MinPercentage" then Ok MinPercentage
  else Raise NotModelled.
(* object.parameter: only on objects, with that parameter *)
Definition attribute (t : tree) (n : string) : res tree :=
  match t with TObj _ ps => of_option AttributeError (assoc ps n) | _ => Raise AttributeError end.
(* objects of solution/mixing_model.py from their parameters; an infinite bound is no bound; amounts are not negative *)
Definition bound_of (low : bool) (t : tree) : res (option Q) :=
  match t with
  | TPrim (PInt z) => Ok (Some (inject_Z z))
  | TPrim (PFloat (Fin q)) => Ok (Some q)
  | TPrim (PFloat NInf) => if low then Ok None else Raise NotModelled
  | TPrim (PFloat PInf) => if low then Raise NotModelled else Ok None
  | _ => Raise NotModelled
  end.
Definition experience_of (t : tree) : res expcalc :=
  match t with
  | TObj c _ =>
      let? l := attribute t "lower_bound" in let? l := bound_of true l in
      let? u := attribute t "upper_bound" in let? u := bound_of false u in
      if String.eqb c "suprb.solution.mixing_model.ExperienceCalculation" then Ok ExpAsIs
      else if String.eqb c "suprb.solution.mixing_model.CapExperience" then Ok (CapExperience l u)
      else if String.eqb c "suprb.solution.mixing_model.CapExperienceWithDimensionality" then Ok (CapExperienceWithDimensionality l u)
      else Raise NotModelled
  | _ => Raise NotModelled
  end.
Definition amount_of (t : tree) : res nat := match t with TPrim (PInt n) => if Z.ltb n 0 then Raise NotModelled else Ok (Z.to_nat n) | _ => Raise NotModelled end.
Definition filter_of (t : tree) : res sfilter :=
  match t with
  | TObj c _ =>
      let? n := attribute t "rule_amount" in let? n := amount_of n in
      if String.eqb c "suprb.solution.mixing_model.FilterSubpopulation" then Ok KeepAll
      else if String.eqb c "suprb.solution.mixing_model.NBestFitness" then Ok (NBestFitness n)
      else if String.eqb c "suprb.solution.mixing_model.NRandom" then Ok (NRandom n)
      else if String.eqb c "suprb.solution.mixing_model.RouletteWheel" then Ok (RouletteWheel n)
      else Raise NotModelled
  | _ => Raise NotModelled
  end.
Definition weight_of (t : tree) : res Q :=
  match t with TPrim (PInt z) => Ok (inject_Z z) | TPrim (PFloat (Fin q)) => Ok q | _ => Raise NotModelled end.
Definition mixing_of (t : tree) : res mixing :=
  match t with
  | TObj c _ =>
      if String.eqb c "suprb.solution.mixing_model.ErrorExperienceHeuristic" then
        let? e := attribute t "experience_calculation" in let? e := experience_of e in
        let? w := attribute t "experience_weight" in let? w := weight_of w in
        let? f := attribute t "filter_subpopulation" in let? f := filter_of f in
        Ok (mkMixing f e w)
      else Raise NotModelled
  | _ => Raise NotModelled
  end.

Section Saved.
Variable L : learner.
Variable classes : string -> option cinfo.
(* coef_ and intercept_ of a fitted model, if it has them; a model of the class with the two attributes set (226-232) *)
Variable coefs : Mdl L -> option (list Q * Q).
Variable linear : string -> list Q -> Q -> Mdl L.
(* what a loaded rule lacks: fitness_, pred_, match_set_ *)
Variable absent : num * list Q * list bool.
Variables (D : discovery L) (C : composition L) (G : logger L).

Definition save_rule (r : rule L) : res saved_rule :=
  let? a := of_option AttributeError (att r) in
  let? m := of_option AttributeError (rmodel r) in
  let? (q, i) := of_option AttributeError (coefs m) in
  Ok (mkSaved (error a) (experience a) (bnd (cond r)) (M_Rule.is_fitted a) q i).
(* 57-62, 101-102: of the pool only the rules are written; pool[0] of an empty one *)
Definition write (conf : tree) (measured : res (Q * Q * num)) (pool : list (rule L)) : res file :=
  let? m := measured in
  let? rs := rmap save_rule pool in
  match rs with [] => Raise IndexError | _ => Ok (mkFile m (save_config classes conf) rs) end.
(* suprb.py:147-150 for the placeholder *)
Definition measured (e : est D C G) : res (Q * Q * num) :=
  match elitist e with
  | None => Raise AttributeError
  | Some Placeholder => Ok (99999, 99999, Fin 0)
  | Some (Learned b) => Ok (qofnat (scomplexity (eatt b)), serror (eatt b), sfitness (eatt b))
  end.
(* 27-42 dump *)
Definition dump (conf : tree) : St (est D C G) file := fun e =>
  match cleanup e with
  | (Ok _, e') | (Raise AttributeError, e') => (write conf (measured e') (pool e'), e')
  | (Raise x, e') => (Raise x, e')
  end.

(* 201-214 _convert_json_to_rule, 217-223, 226-232; _get_class: the class must exist *)
Definition load_rule (config : list (string * jv)) (s : saved_rule) : res (rule L) :=
  let? v := of_option KeyError (assoc config "matching_type") in
  let? c := get_class v in
  let? t := matching_class c in
  let? v := of_option KeyError (assoc config "rule_discovery__init__model") in
  let? c := get_class v in
  let? _ := build classes c [] in
  let? v := of_option KeyError (assoc config "rule_discovery__init__fitness") in
  let? c' := get_class v in
  let? _ := of_option ImportError (classes c') in
  Ok (mkRule (mkMatching t (s_bounds s)) (Some (linear c (s_coef s) (s_intercept s)))
        (Some (mkAtts (s_fitted s) (s_error s) (fst (fst absent)) (s_experience s) (snd (fst absent)) (snd absent)))).
(* a loaded estimator: parameters, pool_, and of elitist_ the mixing model; the genome selects every rule (235-241) *)
Record loaded : Type := mkLoaded { l_conf : tree; l_pool : list (rule L); l_mixing : mixing }.
(* 45-54 load *)
Definition load (f : file) : res loaded :=
  let? t := load_config classes (f_config f) in
  let? rs := rmap (load_rule (f_config f)) (f_pool f) in
  let? c := attribute t "solution_composition" in
  let? i := attribute c "init" in
  let? m := attribute i "mixing" in
  let? _ := attribute i "fitness" in
  let? m := mixing_of m in
  Ok (mkLoaded t rs m).
(* suprb.py:274-283 on it: is_fitted_ is set, is_error_ is not there *)
Definition predict_loaded (l : loaded) (X : matrix) : St rng (list Q) :=
  lift (check_X X) ;; sol_predict L (l_mixing l) (repeat true (length (l_pool l))) (l_pool l) X false.
(* dump of a loaded estimator: its elitist has no complexity_ *)
Definition dump_loaded (l : loaded) : res file := write (l_conf l) (Raise AttributeError) (l_pool l).
End Saved.
Arguments mkLoaded {L}. Arguments l_conf {L}. Arguments l_pool {L}. Arguments l_mixing {L}.
Arguments save_rule {L}. Arguments write {L}. Arguments measured {L D C G}. Arguments dump {L} classes coefs {D C G}. Arguments load_rule {L}. Arguments load {L}.
Arguments predict_loaded {L}. Arguments dump_loaded {L}.
