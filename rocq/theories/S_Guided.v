(* Vocabulary for the use the rule discovery makes of the model found so far. *)
From Verif Require Import PyNum PyList PyMon PyRng M_Matching S_Matching M_Rule M_RuleGen M_Mixing M_Discovery S_Discovery M_Fit S_Fit M_Shipped S_Constrained.

(* the rules a discovery looks at: those of the model it was given, or all *)
Definition guiding {L} (use : bool) (call : dcall L) (rs : list (rule L)) : Prop :=
  match d_elite call with
  | Some b => if use then length (ebits b) = length (d_pool call) /\ rs = compress (d_pool call) (ebits b) else rs = d_pool call
  | None => rs = d_pool call
  end.
(* one of the rules misses the sample *)
Definition missing {L} (rs : list (rule L)) (x : row) : Prop := exists r, In r rs /\ ~ covers (cond r) x.
(* sample x is number i, and its prediction is not its target *)
Definition mispredicted (X : matrix) (y : targets) (pr : list Q) (x : row) : Prop :=
  exists i a b, nth_error X i = Some x /\ nth_error pr i = Some a /\ nth_error y i = Some b /\ ~ a == b.
(* conditions begin around their origin *)
Definition around (i : rule_init) : Prop := i = MeanInit \/ exists s, i = HalfnormInit s /\ 0 <= s.
(* the discoveries whose rules still cover the sample they were begun at: ordered bounds, both constraints with the bounds of the data,
   and mutations that only widen; with the choice of origins they use *)
Inductive seeks (L : learner) (rngof : stream -> rng) : discovery L -> origin -> Prop :=
| Seeks_es c mr : d_type (es_d c) = OrderedBound -> around (d_init (es_d c)) -> growing (es_mut c) -> seeks L rngof (es_discovery L rngof c (GivenCombined mr None)) (d_origin (es_d c))
| Seeks_rs c mr : d_type (rs_d c) = OrderedBound -> around (d_init (rs_d c)) -> seeks L rngof (rs_discovery L rngof c (GivenCombined mr None)) (d_origin (rs_d c)).
