{
"C01": "All four encodings, any number of samples and dimensions.",
"C02": "Proved for ordered, unordered and centre-spread; min-percentage reports another number (refuted).",
"C03": "Proved for ordered bounds. Centre-spread and min-percentage clip to [-1,1] whatever the bounds are; unordered bounds are never clipped (refuted), centre-spread intervals can stick out (refuted).",
"C04": "Proved for ordered and centre-spread; unordered and min-percentage lose samples or stay too narrow (refuted).",
"C05": "Ordered bounds, as the property says. The last theorem shows the edge exception is real.",
"C06": "Proved for ordered bounds with mean and half-normal initialisation, and for mean initialisation with unordered and centre-spread conditions; fails for min-percentage and for unordered half-normal.",
"C07": "Exact minimum and maximum per feature.",
"C08": "Parent untouched and ordered offspring proper: all operators. Increasing operators keep samples for ordered bounds; refuted for centre-spread and min-percentage.",
"C09": "Ordered bounds; other encodings raise TypeError.",
"C10": "Any regressor that predicts row by row; all encodings and data sets.",
"C11": "Same data, changed match sets and whole histories are covered; refitting on new targets with an unchanged match set keeps the old values (refuted).",
"C12": "Over the reals; range proved for ordered, unordered and centre-spread rules; min-percentage rules can exceed 100 (refuted) because of their wrong volume.",
"C13": "For every outcome of the filter; weights are experience*weight/error, 0 for the infinite error of a rule without matches. Rules that never matched a sample have no trained model: silent where they match nothing, NotFittedError otherwise.",
"C14": "Rules truthful about the training data, for all filters.",
"C15": "Order: proved without filter and for n-best without ties; two equally fit rules make n-best depend on the order (refuted). Padding and weight scaling proved.",
"C16": "n >= 1 proved; n = 0 keeps everything (refuted).",
"C17": "For every filter outcome; pool rules fitted on the data, whether or not they match a sample.",
"C18": "Over the reals. Strictness in the error needs at least one unselected rule (Wu is constant otherwise, refuted). The genome-length theorems are what C22 needs.",
"C19": "clone() equality and later independence over every sequence of heap operations; clone with a new genome has no measured values.",
"C20": "padding appends, keeps the selected rules, and a pool shorter than the genome raises.",
"C21": "For every shipped optimizer (inductive catalogue 'shipped' in S_Optimizers) and every history of growing pools within one fit call: genome length = pool length for population and archive, the selected rules can be looked up, measured values are those of the genome; the only exceptions a run can end with are others than the length assertion.",
"C22": "Elitist best and never worse for every shipped optimizer; the three hypotheses (archive, size-free fitness, deterministic mixing) are each shown necessary by a _refuted witness. In the genome-length witness log x is replaced by x - 1 (the true PseudoBIC formula is refuted over the reals in C18_genome_length_bic_refuted).",
"C23": "One generation and a whole run of the modelled GA, over all heaps a program can build; hypotheses: deterministic mixing filter, no NaN fitness, and at least one elitist for the monotonicity claim.",
"C24": "Position-wise recombination holds for every crossover; the alternation of n-point crossover is refuted with n = 2 (only one cut takes effect), the single-cut behaviour is proved instead.",
"C25": "Exact effect of the draws and reachability of every genome for rates strictly between 0 and 1.",
"C26": "All four selections return n members; tournament, linear rank and roulette are exact. Roulette is refuted for negative fitness (pseudo-BIC): weights inverted when all are negative, ValueError when signs are mixed.",
"C27": "saga1 and saga3 keep their rates in range over all runs; saga2 does not: bounds leave the range, become NaN, mutation rate below zero (three refutations with concrete runs).",
"C28": "Violated: a population of one dies out, and at capacity one ageing call can remove everybody. Proved: below capacity newborn members survive, two newborn members breed two more, a best member above the median does not age.",
"C29": "Ranges, and selectability for pools whose rules are not all equally fit, are proved for both builders. Violated when all rules are equally fit: the normalised heuristic is 0/0 and no rule is selected.",
"C30": "Full property for all three neighbour operators, over phases, scouts, iterations and scout-free runs. Fitness values are not NaN in the run theorems. Solution objects live in an explicit heap.",
"C31": "Lengths, ranges and personal bests are proved for all movements and both wolf updates. The mean clause is violated (threshold is half the genome length, not half the swarm): refuted by a witness, proved for swarms with as many particles as rules (even).",
"C32": "For ES, RS and novelty search, with an error bound that is not infinite or a variance factor that is not 0. C32_infinite_error_refuted: MaxError(inf) accepts rules that match no sample.",
"C33": "Stated over a witness of the generations that were bred. '+' beats the initial rule and everyone seen; ',' is the best child of the last productive generation; '&' is that or the fittest and oldest of a full window. Refuted for selections other than Fittest.",
"C34": "Fittest: the n fittest, in order. All methods: only candidates, at most n. Roulette never takes an unmatched rule if another exists. Non-dominated: every non-dominated rule can be chosen, but so can a beaten one (refuted; the scan modifies the list it iterates over).",
"C35": "Matching and squared-error origins: the exact distribution handed to the generator, uncovered samples have the largest weight, fully covered ones are never drawn. UniformInput refuted (points that are not samples), but it stays inside every box containing the data. The squared-error origin raises AttributeError when the pool holds initial rules and there is no elitist yet.",
"C36": "A novelty calculation on a usable heap never fails and keeps at least one rule; minimal criteria drop only small rules below 25 matches and fewer than q% of n-1 plus one; progressive criteria keep at least half, upward closed in fitness; Pareto keeps all non-dominated and nothing beaten in both; exact score for first comparisons; range [0,1] ([0,2] with local competition). Refuted: exclusiveness of the Pareto front, [0,1] with local competition, and the nearest neighbour being another rule (a rule is its own neighbour). Assumes finite rule fitness. Scores of rules compared more than once (duplicates) are covered by the range only. A rule that was compared before is not compared with rules that entered the archive since (C36_seen_rules_refuted).",
"C37": "Components and logger are parameters with state; calls are recorded in the components' own state. Error state iff some call raised, for any previous state of the estimator; hypotheses: logger does not raise, composition starts without elitist and delivers one after a successful step. Refuted: n_iter=0 raises AttributeError out of fit; n_rules=0 gives the error state although nothing raised.",
"C38": "Pool after each call is the concatenation of all discovery results so far; bounded when the discovery respects n_rules (modest).",
"C39": "Proved without initial rules, and with them when step_ agrees; refuted with initial rules: shared seed of initial discovery and step 0, second fit of the same object differs, IndexError (error state) after lowering n_iter.",
"C40": "Exact behaviour proved (comparison with 0 because previous_fitness_ is never updated); the documented comparison with the previous iteration is refuted in both directions.",
"C41": "Tasks as runs over the attributes of self they share; joblib's sequential, process (any batches) and thread backends with arbitrary schedules. Proved for one job and for processes, all mutations; for threads only mutations that do not write their step size (refuted for SigmaRange). Simplification: a mutation reads its step size once per call.",
"C42": "Any estimator state, also the error state and half cleaned ones.",
"C43": "json.py dump/load modelled in M_Saved.v on top of the configuration model of C44. Proved: every selected rule comes back (condition, error, experience, fitted mark, coefficients); the loaded mixing model is determined exactly; with no filter and unbounded experience the loaded estimator answers every input as the saved one. Violated for filtered or bounded mixing models, for estimators that selected no rule (IndexError), for the default estimator (ImportError), and a loaded estimator cannot be saved. Linear models are abstract with the two laws linear_models; input_space_ is not modelled.",
"C44": "Loading terminates on every dictionary (rounds bounded by the number of keys). Of every orderly configuration that loads, all numbers, texts, nested Nones and classes of parametrised components come back in place (C44_values_restored_partial); C44_restored_whole gives exact conditions under which everything comes back but the logger and array contents (the configuration of tests/test_json.py is an instance). Violations with witnesses: parameterless components replaced by the parent's default, None at the top becomes text, name prefixes (saga1, sas) and arrays make loading fail or lose contents. The class table M_Classes is a selection of the library.",
"C45": "Heap model of objects and attributes (M_Objects): the wrapper proved for all component trees and keyword sets whose keywords do not meet; object together with its settings; refuted parts: steps that do not exist are skipped silently, any attribute (also a method) is accepted, calls without an estimator share one, objects in default arguments are shared between estimators.",
"C46": "flatten yields exactly the leaves (strings and non-iterables) in left-to-right depth-first order, as nested generators produce them; a zero-dimensional array inside is shown to raise",
"C47": "both metrics exactly; the order and the exact values of the logged summaries (finite values); R2 at most one; the history left by the default logger after a whole fit. Diversity is not relative: it reaches n*n/4, shown in an example. The two metrics are commented out in default.py, so nothing calls them",
"C48": "Preparation of the components in fit (clone, bounds, representation, jobs, genome length) on the heap model, for all classes and component trees: old objects untouched even if an exception is raised; copies agree in every setting. Hypotheses: n_jobs is a plain value; for the copies also that the rule discovery carries no representation of its own. Constructor assertions are not modelled.",
"C49": "Violated for sas and saga2 (runs that raise IndexError after a step on an empty pool), and for aco, bees, swarm and wolves with warm start: the population stays at one member for the rest of the fit (C49_stays_alone, C49_swarms_refuted). Proved: any optimizer is left with one member; ga, saga1, saga3, rs are back at their size after the next step.",
"C50": "Crossover and mutation keep every existing solution; violated in saga3, whose crossover without recombination overwrites the parent's own rates.",
"C51": "Ordered bounds: proved. Other representations raise TypeError (refuted).",
"C52": "Refuted for fitted estimators: elitist_ is overwritten before check_X_y.",
"C53": "Refuted: SeedSequence(Generator) raises TypeError.",
"C54": "Proved for whole fit calls over an abstract tape for every stream; the learner's fitness must be finite (novelty search needs that).",
"C55": "Violated: universal theorem that a discovery whose origins ask the elitist (SquaredError) always ends in the error state after initial rules were found, and a concrete pair of runs.",
"C56": "proved for every logger against a fit without one, for whole histories of quiet loggers, and for combined loggers; the logger sees the pool, the population and the elitist as values, so aliasing is outside the model; the last part is refuted for NRandom",
"C57": "Proved: after a successful preparation every component holds and uses the configured representation. Refuted: preparation succeeds for every representation (default mutation, novelty search).",
"C58": "logging/combination.py modelled in M_Combined.v with the parts of sklearn.base it uses, on a heap of loggers and with keys as texts. Proved for proper names; refuted: warning about nesting, names that occur twice, names that end in an underscore, and that a refused call with several keys changes nothing. Loggers other than CombinedLogger have plain parameter values. Several keywords at once that name parameters of loggers without members: all of them are set and nothing else (C58_sets_several); one logger under two names: the last keyword given need not count (refuted).",
"C59": "Each call of the mixing model applies one function to every sample, whatever the filter; without a random filter the function is the same for all calls. For the whole estimator: any fit with components of the library, including one in the error state. Refuted for random filters.",
"C60": "Refused with ValueError when neither width is 1 and some rule is selected. Refuted: a single column is broadcast in matching, so unmatched samples get zeros; the error state accepts anything. Not modelled: the regressor's own check of the width, which makes matched samples of a wrong width fail.",
"C61": "Proved for ordered bounds: all rules of every fit that ends without an error, with the three discoveries of the library and any composition, lie in the region (C61_rules_inside), have the minimum width when only MinRange is set (C61_rules_wide), and keep half the minimum width with both constraints when the strategy starts at samples and only grows, as ES1xLambda does by default (C61_growing_rules_keep_width). For CenterSpread and MinPercentage only the stored numbers are limited. Three parts of the property are refuted by whole fit calls.",
"C62": "Components that fit works with satisfy their constructors' assertions and have their computed attributes up to date, for all configurations of shipped components. Refuted: set_params does not check, None set afterwards is no default, computed attributes are stale before fit, and a wrapper keyword naming one is ignored.",
"C63": "Each discovery of a fit is given the best model of the composition before it. Every rule that an evolution strategy with a widening mutation or random search finds covers a sample the model misses (origins by matching) or predicts wrongly (origins by error). Refuted for a mutation that moves the condition.",
"C64": "Proved in double precision (round to nearest, ties to even, subnormals, overflow) for the operations in the order numpy carries them out: matching and clipping of ordered and unordered bounds are exact; minimum width (ordered bounds, centre-spread) and growth keep matched samples; fresh rules match their origin; constrained rules lie in the region; uniform draws stay inside. Partial: the minimum width holds up to 2^-53 of the bounds; refuted by a rule around 1e10 with the default 1e-6. Refuted: MinPercentage up to 1. Drawn amounts are arbitrary non-negative numbers; UnorderedBound.min_range is left out (wrong indexing, C05).",
"C65": "Error bound proved for sums added one after the other, as np.sum along the first axis does. Partial: between the rules' predictions up to the bound. Refuted: single rule (0.7 becomes the next double); huge targets (error overflows, weight 0, prediction 0). The predictions of the regressors are given.",
"C66": "np.exp is a parameter with a stated law. Proved: share in [0,1], volumes monotone, fitness in [0,100] when the space volume is finite and positive (Wu: share not 0). Refuted with witnesses: Wu's quotient above 1, overflow of the space volume with 1024 features, equal fitness for errors above 373.",
"C67": "The order of addition is an arbitrary tree over a permutation of the squares. Proved: relative error at most (2n+6)2^-53, two orders differ by at most (4n+12)2^-53 relatively. Refuted: exact independence of the order.",
"C68": "Weights with rounding: with at most 2^20 non-negative doubles whose sum is positive and at most 2^900, added in any order, numpy accepts the computed probabilities (its Kahan sum is within 2^-26 of 1), the index drawn has a positive weight, and the set of random numbers that draw i is an interval whose length differs from the exact share by at most 24 (n + 1) 2^-53. All weights 0: no bias in origins and the selection of solutions, ValueError in the selection of rules (caught there) and for the onlooker bees (not caught). Refuted: every positive weight has a chance; sums that overflow; squared errors that underflow. numpy's Generator.choice is modelled from its documented algorithm (checks, cumsum, division by the last entry, searchsorted right).",
"C69": "saga1's rates (clamped by min and max) stay in range for any number of generations and any diversity measure, and move in the documented direction. saga2's rates: proved up to a relative excess of 3 * 2^-53 for any mean; a rate above the maximum and one below the minimum are exhibited. Means: exact up to 2 n 2^-53 times the largest value; refuted exactly: three solutions of fitness 0.1 have a mean above 0.1, with the consequence for the rates of saga1 and saga2. Pheromones: in range, falling without deposits, not falling because of them. np.mean and sum are modelled as additions in any order (tree); sum() in Python 3.12 and later compensates rounding errors and is not modelled.",
"C70": "Ordered bounds of positive volume: share of overlap characterised by volumes and containment; probability 0 exactly for nested rules; monotone; marks entry by entry; one iteration. Partial because center-spread and flat rules violate it (witnesses). Roots and powers are parameters assumed increasing with 0 for 0.",
"C71": "Proved for all components and parameters. Violated parts are stated as theorems of their own (reported fitness always 0, composition not skipped, stale step number, missing texts). Tracebacks, the format of numbers and the output of the logger are not part of the model; the order of the messages about bounds is that of get_params, given as a list.",
"C72": "Every coordinate of the classical and the quantum movement and every bit of the wolves is given by a formula over named entries of the random tape. Refuted: a_min at the last iteration, the best position found so far as target, a position for every random number.",
"C73": "Both random filters in exact arithmetic over the tape: how many rules, which, and that every selection is possible. Roulette failures (too few rules of positive fitness, a rule that matched nothing) are proved as exceptions and exhibited as a refutation. Probabilities of the selections are not stated.",
"C74": "Updates of the bees evaluated over the random numbers they read; the iteration as a whole; two refuted expectations with witnesses.",
"C75": "Progress: with es_works / rs_works / ns_works, working_composer, mixing_works and working_logger no component raises and fit ends with a learned model that predicts any table of the same width; C75_defaults is the case SupRB() with all default components, for every data set, seed, local model and fitness. Covers ES1xLambda, RandomSearch and NoveltySearch for rules, every shipped composer except SAS (its population can die out, C37 and C49) and the binary quantum swarm, and the library's loggers. Settings accepted by the constructors that raise are refuted by witnesses: delay 0 with '&', roulette in the ES, novelty search on other representations, an infinite error bound (predict raises), SAGA2 with warm start after a step on an empty pool, the binary quantum swarm, bees whose fitnesses are all 0.",
"C76": "One iteration of the loop is the relation 'generation' of S_Breed (parents, children in pairs, survivors by preference, archive additions, untouched rules); the course over any number of generations and the returned rules follow. Refuted: an odd lambda gives lambda - 1 children; distances_ and idx_ stay on returned rules (the code looks for 'distance_'). Order by preference is not stated for the biased novelty calculation, whose scores may be any number.",
"C77": "The except branch of test_matching_functions is never entered: fit does not raise, it sets is_error_. Configurations of tests and examples are listed in M_Tested with their lines. The drawn fitnesses of test_RouletteWheel belong to one seed of numpy's generator and are not modelled.",
"C78": "Local models enter as functions that are themselves indifferent to order (proved for the mean model). Both sides read the same random numbers. match_set_ and the stored predictions are compared in C78_matched_only only. C78_percentage_refuted: MinPercentage computes the volume from the raw numbers, so the same box gets another fitness.",
"C79": "Local models enter as functions with the property follows (proved for the mean model). C79_shift_refuted: unmatched samples are predicted 0, so the error of a solution changes. C79_scale_refuted: errors are floored at 1e-4, which does not scale. Scaling is proved for solutions without a filter, since fitness-based filters may choose other rules.",
"C80": "Objects are finite trees: an object that contains itself, for which the code recurses without end, is outside the model. Values without __dict__ are opaque. C80_default_refuted, C80_same_name_refuted and C80_classes_refuted are weaknesses of examples/utils.py.",
"C81": "Relational theorem over two runs (evolution strategy, random search and novelty search) with the same random numbers. Equality of predictions is equality of the written rational numbers, so the local model is taken to write its results in lowest terms (as line_learner in L_UnitsEx does). The ant colony with the Complete builder is not covered; CenterSpread, MinPercentage and UnorderedBound conditions are not covered. The default ridge regression depends on the scale (not on the offsets) of the features, because of its penalty; the theorem then applies with a = 1.",
"C82": "Generic over rule discovery and solution composition. C82_length_matters uses ComplexityEmary(alpha=0), whose values are rational; it relies on the standard library's axioms of the real numbers (only for the link to sol_fitness). The course is read with clean=False; C42 covers the cleanup.",
"C83": "C83_ratios covers roulette wheels, SAGA1, SAS and the bees for multiplication by a positive number; other scales exclude them. Not covered: SAGA2 (adds a small constant before dividing), ants, and novelty search; exact arithmetic (a scale that merges values by rounding does not keep the order).",
"C84": "Rules, acceptance, bounds, prediction, measures, score and the weights of the roulette wheel origins, for data with k copies of every sample; values compared as numbers. Whole runs of fit are not related: the draws of the tape are not tied to the number of samples. Two cases show why limited experience and regularised models are excluded.",
"C85": "Two estimators whose mixing models differ only in experience_weight (both nonzero): predictions, measurements, discoveries (ES, random search, novelty search), fit histories with early stopping and the default logger's metrics agree, for all ten solution optimizers (C85_optimizers; np.sqrt, np.cos and ** are taken to be functions of the value). Weight 0 silences every rule.",
"C86": "C86_stopped: a fit ended by early stopping equals the fit without early stopping and with that many iterations (fitness blind to max_genome_length_); C86_length_matters: false for ComplexityEmary; C86_unused: early stopping that did not strike only leaves its counter; C86_more_patience: more patience or a smaller delta never ends earlier and begins with the same pool and logs.",
"C87": "Proved by running both histories in step on heaps with different older solutions; with an archive the archived solution is the only old one both runs use. C87_reports says the same of the elitist and population the estimator reads, C87_model of the model fit ends with (both without archive). Refuted for SAGA1, SAGA2 (with simple functions in place of root and cosine) and SAS with concrete histories; C87_warm_matters and C87_archive_matters show that warm start and archive make the difference.",
"C88": "C88_rest builds on C87_reports; the discovery is arbitrary, its own state counts among what must agree. C88_warm_refuted runs both continuations with warm start. That an archive matters is C87_archive_matters.",
"C89": "Heaps are matched by a one-to-one correspondence of addresses (same_picture); that the result of one step looks the same again is stated for results whose solutions exist on the heap, while C89_histories compares population, archive, elitist, generator and exception after any number of steps without that condition. C89_identity_matters shows why equal contents alone do not suffice."
}
