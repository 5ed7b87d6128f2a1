(* The components SupRB() uses when none are given (suprb.py:80-106, 163-170). *)
From Verif Require Import PyNum PyList PyMon PyRng M_Matching M_Rule M_RuleGen M_Mixing M_Discovery M_Solution M_Composition M_GenomeOps M_GA M_Fit M_Shipped M_Logging.

(* optimizer/rule/es/es.py:52-66: Matching() (origin.py:49), MeanInit(), HalfnormIncrease(sigma=1.22), Fittest(), Variance() (acceptance.py:33);
   suprb.py:165 OrderedBound.  The constraint is set when fit starts. *)
Definition default_es : escfg :=
  mkEs (mkDcfg OrderedBound MeanInit (Clip []) (Variance 1) (Matching true)) (100 * 100) 20 EsAnd 146 (Mut (MutHalfnormIncrease (Scalar (61 # 50)))) RFittest.
(* CombinedConstraint(MinRange(), Clip()), constraint.py:30, 41, 53 *)
Definition default_constraint : given_constraint := GivenCombined (1 # 1000000) None.
(* optimizer/solution/ga/base.py:35-49, selection.py:48, crossover.py:12 *)
Definition default_ga : gcfg := mkG 32 32 (17 # 100) (SelTournament 5) (NPoint 3) (9 # 10) (1 # 1000).
(* initialization.py:62-70, archive Elitist(), warm_start=True *)
Definition default_ccfg : ccfg := mkCcfg (RandomInit (1 # 2)) true true.
(* initialization.py:32, mixing_model.py:76-85 *)
Definition default_mixing : mixing := mkMixing KeepAll ExpAsIs 1.
(* suprb.py:80-94, without verbose and n_jobs *)
Definition default_params : params := mkParams 32 0 4 NoSeed (-1) 0.

Section Defaults.
Variable L : learner.
Variable rngof : stream -> rng.
(* suprb.py:163 *)
Definition default_discovery : discovery L := es_discovery L rngof default_es default_constraint.
(* suprb.py:164; f: the fitness ComplexityWu() *)
Definition default_composition (f : nat -> Q -> nat -> nat -> num) : composition L := shipped_composition L rngof (ga default_ga) tt default_ccfg default_mixing f.
End Defaults.
