# Formal model of heidmic/suprb: design

The code under /repo is read as text and modelled function by function in Rocq (Coq 8.16.1). Nothing is run.

## Layout of rocq/theories

| files | content |
|---|---|
| `Py*.v` | the small part of Python / numpy the code uses: numbers with inf and NaN, exceptions as values, stable sorting, slicing, `compress`, the random generator |
| `M_*.v` | the model: computable Gallina definitions only, each citing file and lines; no proofs |
| `S_*.v` | specifications: short definitions, written without looking at the model, used in the statements |
| `L_*.v` | lemmas and proofs |
| `P_*.v` | property theorems only: statement, `exact lemma`, `Print Assumptions`, and an `Example` with a concrete case meeting the hypotheses |

Theorem names start with the property id (`C01_...`). Suffix `_partial`: only part of the property. Suffix `_refuted`: the code
as written violates the property; the theorem gives the witness.

`tools/sync.py` regenerates `_CoqProject` and `MANIFEST.json` from the files; `tools/notes.json` holds the notes.

## Modelling decisions

* **Numbers.** Finite numbers are exact rationals (`Q`), so the model computes. Values that the code lets become infinite or NaN
  (errors and fitnesses of unmatched rules, 0/0 in normalisations) are `num := Fin q | PInf | NInf | NaN` with IEEE comparison
  rules. Rounding and overflow are left out there; `PyFloat` and `M_Float` model them (round to nearest, ties to even, subnormal
  numbers, overflow; zero has no sign) for conditions, constraints and mixing. The fitness formulas that use exp or log are modelled over the
  standard library's reals, which brings the axioms of `Reals`.
* **Exceptions** are values (`Raise e`). A branch that raises in Python raises in the model.
* **Random generator.** A generator is an infinite tape of rationals with a read position. Uniform draws are the fractional part of
  the next entry, integers are taken modulo, half-normal draws are the absolute value, weighted choices follow numpy's inverse
  cumulative sum. So every outcome numpy could produce is produced by some tape, and a theorem for all tapes covers all draws.
  Nothing is said about distributions.
  The random filters of the mixing model (NRandom, RouletteWheel) own a generator, which all solutions of a fit share. In the model they
  read on from the generator of whoever asks (optimizer, origin generation, logger, caller of predict). As tapes are arbitrary, a run of
  the code with two generators is a run of the model with the tape that holds their draws in the order of reading, so theorems for all
  tapes carry over. What the sharing itself causes (logging or predicting moves the generator) is stated by C56 and C59.
* **Local models** (scikit-learn regressors) are section variables (train and predict functions), generalised in each theorem.
* **Objects and aliasing.** Where the code mutates shared objects (solutions and their genome arrays, conditions of rules), the model
  has a heap with explicit addresses. Elsewhere objects are values, with a comment saying why sharing cannot be observed.
* **Loops** are structural recursion, folds, or fuel with an explicit out-of-fuel error.
* joblib is modelled as an arbitrary completion order of independent runs. Logging to mlflow/stdout, timing, and the Python
  object protocol (get_params/clone reflection) are modelled where a property needs them (`M_Objects`, `M_Json`).

## Properties: what is modelled, how it is proved

| id | model | theorems | proof |
|---|---|---|---|
| C01-C05 | `M_Matching` (all four encodings: match, volume, clip, min_range with numpy's index semantics; the constraints) | `P_Matching` | per-dimension lemmas lifted by induction over the dimensions; refutations by computation |
| C06-C09 | `M_RuleGen` (estimate_bounds, rule initialisation, mutation, with the tape), `M_RuleHeap` (conditions as shared objects) | `P_RuleGen` | order lemmas on clip and widening; induction over rows; frame lemma on the heap |
| C10, C11 | `M_Rule` (state machine of one rule under fit) | `P_Rule` | case analysis; invariant over fit histories; refutation by a two-call history |
| C12, C18 | `M_Fitness` over `R` | `P_Fitness` | `nra`, monotonicity of exp |
| C13-C17 | `M_Mixing` | `P_Mixing` | induction over the rules; weighted-mean bounds; permutation invariance of sums |
| C19, C20 | `M_Solution` (heap of solutions and genomes) | `P_Solution` | frame lemmas |
| C21, C22, C49 | `M_Composition` (generic optimize + archive), instantiated for every metaheuristic in `M_Shipped` | `P_Composition`, `P_Shipped`, `P_Sas` | invariant over the heap: archive separated from population; induction over steps |
| C23-C26 | `M_GA`, `M_GenomeOps` | `P_GA`, `P_GenomeOps`, `P_Saga` | induction over generations; list lemmas |
| C27, C50 | `M_Saga` (three variants) | `P_Saga` | invariant over generations; witness for the second variant |
| C28 | `M_Sas` | `P_Sas` | witness |
| C29 | `M_Aco` | `P_Aco` | invariant; witness with NaN |
| C30, C31 | `M_Abc`, `M_Swarm` (particle swarm, grey wolves) | `P_Abc`, `P_Swarm` | invariants; bitwise specification of the binary move; witnesses |
| C32-C36, C51 | `M_Discovery` (acceptance, origin, selection, ES, RS), `M_Novelty` | `P_Discovery`, `P_Novelty` | loop invariants; witnesses |
| C37-C40, C42, C52-C55 | `M_Fit` (driver as state machine over histories of fit calls), `M_Shipped` (the library's components in its places) | `P_Fit`, `P_Shipped` | induction over iterations and histories; witnesses |
| C41 | `M_Parallel` (joblib: batches, arbitrary order, shared or copied attributes) | `P_Parallel` | simulation between schedules |
| C43, C44 | `M_Json` (configuration codec over strings), `M_Classes` (constructors), `M_Saved` (dump and load) | `P_Json`, `P_Saved` | forests of parameters; the loader's rounds evaluate the deepest object; witnesses |
| C45, C48, C57 | `M_Objects` (heap of objects with attributes, get_params, set_params, clone), `M_Components` | `P_Wrapper`, `P_Prepare` | frame lemmas on the object heap; witnesses |
| C46 | `M_Utils` | `P_Utils` | nested induction |
| C47, C56 | `M_Logging` | `P_Logging` | exact metric formulas; simulation between runs with different loggers |
| C58 | `M_Combined` (trees of combined loggers: partition of keys, get_params, set_params, copies) | `P_Combined` | induction over trees; string lemmas; witnesses |
| C59, C60 | `M_Mixing`, `M_Fit` (predict), `M_Shipped` | `P_Predicting` | the mixing call is a map over the samples; numpy's broadcasting by cases; witnesses are whole fit calls |
| C61 | `M_Shipped`, `M_Matching`, `M_Discovery`, `M_Novelty` | `P_Constrained` | an invariant of every rule object each discovery makes, carried through the estimator loop; witnesses are whole fit calls |
| C62 | `M_Objects` (computed attributes and assertions of the constructors), `M_Components` | `P_Built` | everything a clone contains came out of its constructor; what fit changes afterwards does not touch those attributes; witnesses |
| C63 | `M_Fit`, `M_Shipped`, `M_Discovery` | `P_Guided` | the record of a fit call says which model each discovery was given; a new rule keeps covering its origin through clipping and widening; origins have positive weight; witness |
| C64, C65 | `PyFloat` (rounding to double precision), `M_Float` (conditions, constraints, initialisation, growth, mixing with rounding) | `P_Float` | rounding is monotone and leaves doubles alone; relative errors add up along sums; witnesses by computation; the rounding is compared with the standard library's `SpecFloat` on sample values |
| C66, C67 | `M_FloatFitness` (volumes, fitness values and errors with rounding; `np.exp` and the order in which numpy adds are parameters) | `P_FloatFitness` | products and quotients of rounded numbers are monotone; relative errors add up along any tree of additions; witnesses by computation |
| C68 | `M_FloatDraw` (division by the sum, numpy's checks of `p`, cumulative sums and search, all with rounding; the order of addition is a parameter) | `P_FloatDraw` | error bounds along Kahan's and the plain sum; the cut points rise and stay where a weight is 0; witnesses by computation |
| C69 | `M_FloatRates` (saga1's and saga2's rates, means, pheromones with rounding) | `P_FloatRates` | clamping by min and max survives rounding; differences of distinct doubles do not round to 0; error of a mean along any tree of additions; witnesses by computation |
| C70 | `M_Aco` (the complete graph; the update of the pheromones addition by addition) | `P_Overlap` | the intersection of two boxes is the box of the larger lower and smaller upper limits; products of lengths; each entry is hit by at most one addition |
| C71 | `M_Verbose` (the steps of `M_Fit.fit` again, carrying what was put out; texts of rules and models) | `P_Verbose` | each step with output is the step without it plus a list; the lists are described by induction over the iterations |
| C72 | `M_Swarm` | `P_Moves` | each movement evaluated coordinate by coordinate over the tape; witnesses |
| C73 | `M_Mixing` | `P_Filters` | selections without replacement are onto; witnesses |
| C74 | `M_Abc` | `P_Bees` | each update evaluated bit by bit over the tape; samples without replacement are onto; the iteration taken apart; witnesses |
| C75 | `M_Defaults`, `M_Discovery`, `M_Novelty`, `M_GA`, `M_Saga`, `M_Aco`, `M_Abc`, `M_Swarm`, `M_Composition`, `M_Fit`, `M_Shipped` | `P_Live` | a progress judgement beside the safety one: each operation succeeds on well-formed heaps and fitted pools; the loop of `fit` carries both; witnesses for the settings that raise |
| C76 | `M_Novelty` | `P_Breed` | inversion of one generation into a relation on heaps; induction over generations; witnesses |
| C77 | `M_Tested` | `P_Tested` | failing initialisation or mutation stops every discovery (case analysis), the rest by the progress judgement of C75; enumeration of the configurations of tests and examples |
| C78 | `M_Rule`, `M_Mixing` | `P_Invariance` | relation between the two runs (same box, same model, same values) carried through fitting, filters and mixture; sums under permutation |
| C79 | `M_Rule`, `M_Mixing` | `P_Equivariance` | relation between the two fits carried through filters and mixture (weights equal, or all divided by k*k); counterexamples for unmatched samples and for the error limit |
| C80 | `M_Scores` | `P_Scores` | induction over the tree of attributes; dictionaries as lists with unique keys |
| C81 | `M_Discovery`, `M_Novelty`, `M_Mixing`, `M_Composition` and the optimizers, `M_Fit`, `M_Shipped`, `M_Logging` | `P_Units` | two runs in step: a relation between rules, problems and estimators in both units is kept by every step of discovery, composition and `fit` |
| C82 | `M_Fit`, `M_Shipped`, `M_Fitness` | `P_More` | two runs in step until the shorter one ends (same calculus as C81), a recording logger makes the course visible |
| C83 | `M_Discovery`, `M_GA`, `M_Saga`, `M_Sas`, `M_Abc`, `M_Swarm`, `M_Composition`, `M_Fit`, `M_Shipped`, `M_Logging` | `P_Order` | two runs in step whose states differ in fitness values only (same calculus as C81) |
| C84 | `M_Rule`, `M_Mixing`, `M_Discovery`, `M_RuleGen`, `M_Logging` | `P_Repeat` | each operation commutes with repeating; the sums of weights and of weighted predictions grow by the same factor |
| C85 | `M_Mixing`, `M_Discovery`, `M_Novelty`, `M_Composition`, `M_Fit`, `M_Shipped`, `M_Logging` | `P_Weight` | all taus are multiplied by the same factor, so it cancels; the two runs are carried through discovery, composition and fit by the calculus of related runs (`S_Order`, `L_OrderHist`); every optimizer depends only on the values it is told (`L_Values`) |
| C86 | `M_Fit`, `M_Shipped`, `M_Fitness` | `P_Patience` | built on the two-run lemmas of C82; the patient run carries a counter that is never larger, the run without early stopping ignores it |
| C87 | `M_Composition`, `M_GA`, `M_Saga`, `M_Sas`, `M_Abc`, `M_Swarm`, `M_Aco`, `M_Shipped`, `M_Fit` | `P_Cold` | two runs in step whose heaps hold different older solutions; addresses are shifted |
| C88 | `M_Fit`, `M_Shipped` | `P_Resume` | `rest` = remaining iterations and end of fit; two estimators that differ in the composition only |
| C89 | `M_Solution`, `M_Composition`, all optimizers | `P_Picture` | two heaps whose populations and archives are matched one to one; everything else on them is arbitrary |

No property is judged inexpressible.

## Parts of the code outside the model

* Floating-point rounding and overflow outside `M_Float`; the sign of zero; the distribution of random draws.
* scikit-learn regressors beyond: training and predicting are functions, one prediction per row. For saved models also: the two attributes
  `coef_` and `intercept_` determine the predictions (`linear_models`).
* `input_space_` of rules and in saved files; the text format of JSON (the model starts from the dictionary).
* Exponential, logarithm, power and square root in the metaheuristics (colony, bees, swarm) are arbitrary functions with stated laws.
* Random choice of numpy beyond its inverse-cumulative-sum definition; timing; text printed by the stdout logger; mlflow.
* Processes of joblib beyond order, batching and copied state; the data sets and plots of the examples, and the assertions of the tests beyond those in `M_Tested`/`P_Tested`.

## Trusted base

* The kernel of Coq 8.16.1 (rechecked with `coqchk`), including its virtual machine (`vm_compute` is used for witnesses); no native compilation.
* That the definitions in `Py*.v` and `M_*.v` say what the cited Python lines do, and that the definitions in `S_*.v` say what the English says.
* Axioms: every theorem outside `P_Fitness.v` is closed under the global context, except `C82_pseudo_bic` and `C82_length_matters` in
  `P_More.v`. Those two and the theorems of `P_Fitness.v` (C12, C18) use the
  standard library's real numbers; `Print Assumptions` lists, for each of them, some of
  `ClassicalDedekindReals.sig_forall_dec`, `ClassicalDedekindReals.sig_not_dec`,
  `FunctionalExtensionality.functional_extensionality_dep` and `Classical_Prop.classic`.
  `coqchk -o` additionally names the opaque module parameters of the loaded standard library (`Coq.Reals.Rdefinitions.RbaseSymbolsImpl.*`,
  `RinvImpl.*`, `Coq.ssr.ssrunder.Under_rel.*`), on which no theorem depends otherwise.
* No axioms, parameters or admitted proofs of our own.

## Seeded bugs

`seeded/LOG.jsonl` has one line per edit of a scratch copy of the model: the definition, the edit, the claim it breaks, the theorems that
no longer build, and the theorems that were tightened because an edit had not been noticed.
