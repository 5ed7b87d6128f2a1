(* The configurations of the repository's own tests and examples: tests/test_matching_functions.py, tests/test_ns.py, tests/test_suprb.py,
   tests/test_json.py, examples/.  The local model and the parameters of its fitness (VolumeWu(alpha=...)) are left to the learner. *)
From Verif Require Import PyNum PyList PyMon PyRng M_Matching M_Rule M_RuleGen M_Mixing M_Discovery M_Novelty M_Solution M_Composition M_GenomeOps M_GA M_Fit M_Shipped M_Logging M_Defaults.

(* ================= tests/test_matching_functions.py ================= *)
(* 50-55: an array of two for the representations with centres and for those with percentages *)
Definition for_type (t : mtype) (s : Q) : sigma := match t with OrderedBound | UnorderedBound => Scalar s | _ => Pair s s end.
(* 83-91 *)
Definition tested_types : list mtype := [OrderedBound; UnorderedBound; CenterSpread; MinPercentage].
Definition tested_mutations (t : mtype) : list mutation := map (fun op => op (for_type t 2)) [MutNormal; MutHalfnormIncrease; MutHalfnorm; MutUniform; MutUniformIncrease].
(* 93.  HalfnormInit is given the array too; where it gets one it has no variant and never looks at it. *)
Definition tested_inits (t : mtype) : list rule_init := [MeanInit; NormalInit (for_type t (1 # 10)); HalfnormInit (1 # 10)].
(* 95-97 *)
Definition matching_suite : list (mtype * mutation * rule_init) :=
  flat_map (fun t => flat_map (fun mu => map (fun i => (t, mu, i)) (tested_inits t)) (tested_mutations t)) tested_types.
(* 57-68 *)
Definition tested_es (t : mtype) (mu : mutation) (i : rule_init) : escfg :=
  mkEs (mkDcfg t i (Clip []) (Variance 1) (Matching true)) 12 20 EsAnd 10 (Mut mu) RFittest.
(* 70-75; ga/base.py:37-49, ga/mutation.py:13, ga/crossover.py:12 *)
Definition tested_ga : gcfg := mkG 16 32 (17 # 100) (SelTournament 5) Uniform (9 # 10) (1 # 20).
(* 76-77 *)
Definition tested_params : params := mkParams 32 0 4 NoSeed (-1) 0.
(* 124-129: the combinations that may fail *)
Definition wanted_error (t : mtype) (mu : mutation) (i : rule_init) : bool :=
  let centred := match t with CenterSpread | MinPercentage => true | _ => false end in
  let halfnorm := match mu with MutHalfnorm _ => true | _ => false end in
  let increase := match mu with MutHalfnormIncrease _ | MutUniformIncrease _ => true | _ => false end in
  let halfnorm_init := match i with HalfnormInit _ => true | _ => false end in
  let unordered := match t with UnorderedBound => true | _ => false end in
  centred && (halfnorm || halfnorm_init) || unordered && increase.

(* ================= tests/test_ns.py ================= *)
(* 71-87; filter_kwargs (101-104) passes k_neighbor to all calculations but the biased one, whose constructor does not take it
   (novelty_calculation.py:14, 101-110) *)
Definition tested_calcs : list (ncalc * nat) := [(NBasic, 20%nat); (NProgressive, 20%nat); (NPareto, 20%nat); (NBiased (33 # 100) (1 - (33 # 100)), 15%nat)].
Definition tested_search : list nstype := [TBasic; TMinimal 10; TLocal 15].
Definition tested_archives : list archive_kind := [ANovel; ARandom; ANone].
(* 57-61 with ns/ns.py:57-75 *)
Definition tested_ns (b : ncalc) (k : nat) (t : nstype) (a : archive_kind) : nscfg :=
  mkNs (mkDcfg OrderedBound (HalfnormInit (1 # 10)) (Clip []) (Variance 1) (SquaredError true)) 10 16 160 15 10 false (1 # 5)
       (Mut (MutNormal (Scalar (1 # 10)))) RRoulette b t a k.
Definition novelty_suite : list nscfg :=
  flat_map (fun bk => flat_map (fun t => map (tested_ns (fst bk) (snd bk) t) tested_archives) tested_search) tested_calcs.
(* 64-65 *)
Definition ns_params : params := mkParams 2 0 8 NoSeed (-1) 0.

(* ================= the other tests and the examples ================= *)
(* discovery, constraint, composition, mixing probability of the initial genomes, parameters *)
Record example : Type := mkExample { x_es : escfg; x_constraint : given_constraint; x_ga : gcfg; x_p : Q; x_params : params }.
Definition es_with (op : es_op) (n lmbda delay : nat) (mu : Q) (beta : Q) : escfg :=
  mkEs (mkDcfg OrderedBound MeanInit (Clip []) (Variance beta) (Matching true)) n lmbda op delay (Mut (MutHalfnormIncrease (Scalar mu))) RFittest.
Definition examples : list example :=
  [ (* tests/test_suprb.py:17-23 *)
    mkExample (es_with EsAnd 4 1 2 (61 # 50) 1) default_constraint (mkG 2 2 (17 # 100) (SelTournament 5) (NPoint 3) (9 # 10) (1 # 1000)) (1 # 2) (mkParams 1 0 4 NoSeed (-1) 0);
    (* tests/test_json.py:37-55 *)
    mkExample (es_with EsAnd 2 20 1 (1 # 10) 1) default_constraint (mkG 1 32 (17 # 100) (SelTournament 5) Uniform (9 # 10) (1 # 1000)) (1 # 2) (mkParams 1 0 5 (IntSeed 42) (-1) 0);
    (* examples/example_1.py:52 *)
    mkExample default_es default_constraint default_ga (1 # 2) default_params;
    (* examples/example_2.py:26-42 *)
    mkExample (es_with EsPlus 32 16 150 (61 # 50) 1) default_constraint (mkG 32 32 (1 # 5) (SelTournament 5) (NPoint 3) (9 # 10) (1 # 1000)) (1 # 2) default_params;
    (* examples/example_3.py:26-53 *)
    mkExample (es_with EsPlus 32 16 150 (1 # 10) 1) (GivenMinRange (1 # 1000000)) (mkG 32 32 (1 # 5) (SelTournament 5) (NPoint 2) (9 # 10) (1 # 20)) (1 # 2) default_params;
    (* examples/example_4.py:28-63 *)
    mkExample (es_with EsAnd (100 * 10) 16 150 (1 # 10) (1 # 10)) (GivenMinRange (1 # 1000000)) (mkG 32 32 (1 # 5) (SelTournament 6) (NPoint 2) (9 # 10) (1 # 10)) (1 # 2) default_params;
    (* examples/wrapper_example_1.py:42-59 *)
    mkExample (es_with EsPlus 10 16 150 (61 # 50) 1) default_constraint (mkG 32 32 (1 # 5) (SelTournament 5) (NPoint 3) (9 # 10) (1 # 1000)) (1 # 2) default_params;
    (* examples/wrapper_example_2.py:44-90 *)
    mkExample (es_with EsPlus 10 16 150 (1 # 10) (1 # 10)) (GivenMinRange (1 # 100000)) (mkG 32 32 (1 # 5) (SelTournament 6) (NPoint 3) (91 # 100) (1 # 10)) (3 # 5) (mkParams 32 0 4 (IntSeed 33) (-1) 0);
    (* examples/compare_sklearn.py:47-63 *)
    mkExample (es_with EsAnd (100 * 100) 20 146 2 1) default_constraint (mkG 128 32 (17 # 100) (SelTournament 5) Uniform (9 # 10) (1 # 20)) (1 # 2) (mkParams 32 0 4 (IntSeed 42) (-1) 0) ].

Section Tested.
Variable L : learner.
Variable rngof : stream -> rng.
Definition tested_discovery (t : mtype) (mu : mutation) (i : rule_init) : discovery L := es_discovery L rngof (tested_es t mu i) default_constraint.
Definition tested_composition (f : nat -> Q -> nat -> nat -> num) : composition L := shipped_composition L rngof (ga tested_ga) tt default_ccfg default_mixing f.
Definition example_discovery (x : example) : discovery L := es_discovery L rngof (x_es x) (x_constraint x).
Definition example_composition (x : example) (f : nat -> Q -> nat -> nat -> num) : composition L :=
  shipped_composition L rngof (ga (x_ga x)) tt (mkCcfg (RandomInit (x_p x)) true true) default_mixing f.
(* the loggers: test_ns.py:67 both, the others one of them *)
Definition tested_logger (g : rng) : logger L := combined_logger [stdout_logger L g; default_logger L g].
End Tested.
