{"id": "C01", "title": "Matching decides interval membership", "statement": "A rule matches a sample exactly when, in every input dimension, the sample's coordinate lies in the closed interval its condition describes: [l,u] for ordered bounds, [min(p,q),max(p,q)] for unordered bounds, [c-s,c+s] for centre-spread, [l, l+p(1-l)] for min-percentage. The answer for one sample does not depend on the other samples of the batch.", "quantifier": "all four condition encodings, all parameter values (including degenerate and inverted ones), all batches of samples of the right dimension", "why_tests_cant": "real-valued parameters in any dimension; a test only probes a few points, mostly not on the boundary", "anchors": ["suprb/rule/matching.py::OrderedBound.__call__", "suprb/rule/matching.py::UnorderedBound.__call__", "suprb/rule/matching.py::CenterSpread.__call__", "suprb/rule/matching.py::MinPercentage.__call__"]}
{"id": "C02", "title": "Reported volume is the volume of the matched region", "statement": "The volume a rule reports is the product over the dimensions of the length of the interval it matches (centre-spread: of the part of it inside [-1,1]).", "quantifier": "all four encodings, all well-formed parameter values (violated by min-percentage)", "why_tests_cant": "equality of two real functions over all parameters and dimensions", "anchors": ["suprb/rule/matching.py::OrderedBound.volume_", "suprb/rule/matching.py::UnorderedBound.volume_", "suprb/rule/matching.py::CenterSpread.volume_", "suprb/rule/matching.py::MinPercentage.volume_"]}
{"id": "C03", "title": "Clipping keeps a rule inside the feature space and loses no in-space sample", "statement": "After the clip constraint every interval limit of the rule lies inside the given bounds, and a sample inside the bounds that was matched before is still matched; a rule already inside is unchanged.", "quantifier": "all four encodings, all bounds with low<=high, all samples inside the bounds (violated by unordered bounds, for which clipping does nothing)", "why_tests_cant": "quantifies over every box, every feature space and every sample", "anchors": ["suprb/rule/matching.py::OrderedBound.clip", "suprb/rule/matching.py::UnorderedBound.clip", "suprb/rule/matching.py::CenterSpread.clip", "suprb/rule/matching.py::MinPercentage.clip", "suprb/optimizer/rule/constraint.py::Clip"]}
{"id": "C04", "title": "Minimum range makes every interval wide enough and loses no sample", "statement": "After the minimum-range constraint with m>0 each interval of the rule is at least m long, intervals that were long enough are untouched, and no sample that was matched stops being matched; with m<=0 nothing changes.", "quantifier": "all encodings, all well-formed boxes, all m, all samples (violated by unordered bounds and min-percentage)", "why_tests_cant": "quantifies over every box, every m and every sample", "anchors": ["suprb/rule/matching.py::OrderedBound.min_range", "suprb/rule/matching.py::UnorderedBound.min_range", "suprb/rule/matching.py::CenterSpread.min_range", "suprb/rule/matching.py::MinPercentage.min_range", "suprb/optimizer/rule/constraint.py::MinRange"]}
{"id": "C05", "title": "Combined constraint yields an in-space rule that keeps its in-space samples", "statement": "After the default (combined) constraint an ordered rule lies inside the feature space, still matches every in-space sample it matched before, and is still a proper box (lower <= upper). Its width is at least the minimum range unless the feature-space edge cuts it.", "quantifier": "all ordered boxes, all bounds, all minimum ranges, all samples", "why_tests_cant": "composition order matters only near the edge of the space, where tests rarely look", "anchors": ["suprb/optimizer/rule/constraint.py::CombinedConstraint", "suprb/rule/matching.py"]}
{"id": "C06", "title": "A fresh rule covers the sample it was created for", "statement": "A rule initialised around an in-space sample (mean or half-normal initialisation) and passed through the default constraint matches that sample, so it is never unfittable.", "quantifier": "all samples, all bounds containing the sample, all random draws, all encodings the initialisation supports (violated by min-percentage)", "why_tests_cant": "must hold for every random draw and every sample", "anchors": ["suprb/rule/initialization.py::MeanInit", "suprb/rule/initialization.py::HalfnormInit", "suprb/rule/initialization.py::NormalInit", "suprb/optimizer/rule/es/es.py::ES1xLambda._optimize"]}
{"id": "C07", "title": "Estimated bounds are the tight bounding box of the training data", "statement": "When no bounds are given, fitting uses per feature the smallest and largest training value: every training sample lies inside and no smaller box contains them all.", "quantifier": "all non-empty training matrices", "why_tests_cant": "quantifies over all data sets", "anchors": ["suprb/utils.py::estimate_bounds", "suprb/suprb.py::SupRB._init_bounds"]}
{"id": "C08", "title": "Mutation yields well-formed offspring and never touches the parent", "statement": "Mutating a rule leaves the parent's condition unchanged; offspring with ordered bounds have lower <= upper in every dimension; the two increasing mutations never lose a sample the parent matched.", "quantifier": "all parents, all step sizes >= 0, all random draws, all encodings (increase violated by centre-spread and min-percentage)", "why_tests_cant": "aliasing and ordering must hold for all random draws; seeded tests see one stream", "anchors": ["suprb/optimizer/rule/mutation.py", "suprb/optimizer/rule/generation_operator.py", "suprb/rule/base.py::Rule.clone"]}
{"id": "C09", "title": "Rule crossover exchanges whole intervals", "statement": "With ordered bounds, uniform crossover of two rules returns two children whose interval in each dimension is that of one parent for the first child and that of the other parent for the second; when no crossover takes place the parents are returned; parents are not modified.", "quantifier": "all parents of equal dimension, all random draws", "why_tests_cant": "all random masks", "anchors": ["suprb/optimizer/rule/crossover.py::UniformCrossover"]}
{"id": "C10", "title": "Fitting a rule reports its true experience and error", "statement": "Fitting a fresh rule on (X,y) records as match set exactly the matched samples, as experience their number, and as error max(mean squared error of the local model on the matched samples, 1e-4). A rule matching nothing is marked unfitted, with error +inf, fitness -inf, experience 0 and no predictions.", "quantifier": "all data sets, all conditions, all local models", "why_tests_cant": "holds for every data set and model", "anchors": ["suprb/rule/base.py::Rule.fit"]}
{"id": "C11", "title": "Refitting reflects the data given", "statement": "After calling fit(X,y) on a rule its error and predictions are those of a local model trained on the matched part of this (X,y). Fitting twice on the same data changes nothing.", "quantifier": "all sequences of fit calls (the first half is violated when the match set does not change)", "why_tests_cant": "depends on the history of calls", "anchors": ["suprb/rule/base.py::Rule.fit"]}
{"id": "C12", "title": "Rule fitness is within its documented range and prefers accuracy and generality", "statement": "Pseudo-accuracy, Emary and Wu rule fitness lie in [0,100] for rules inside the feature space, do not decrease when the error shrinks or the volume grows, and error 0 / full volume gives 100.", "quantifier": "all errors >= 0, all volume shares in [0,1], all alpha in range", "why_tests_cant": "real inequalities over the whole domain", "anchors": ["suprb/fitness.py", "suprb/rule/fitness.py"]}
{"id": "C13", "title": "A prediction is the weighted mean of the matching rules", "statement": "For each sample the prediction of a solution is the mean of the predictions of its (filtered) rules that match the sample, weighted by experience/error; it is 0 where no rule matches, lies between the smallest and largest matching prediction, and equals the rule's own prediction where exactly one rule matches.", "quantifier": "all subpopulations of fitted rules, all inputs, seen or unseen", "why_tests_cant": "numeric identity and bounds over all rule sets and inputs", "anchors": ["suprb/solution/mixing_model.py::ErrorExperienceHeuristic"]}
{"id": "C14", "title": "Cached and fresh predictions agree on the training data", "statement": "Predicting the training data with the caches filled during fitting gives the same values as recomputing matches and predictions from scratch.", "quantifier": "all sets of rules fitted on that data", "why_tests_cant": "cache coherence over all fit histories", "anchors": ["suprb/solution/mixing_model.py::ErrorExperienceHeuristic._get_local_pred", "suprb/rule/base.py::Rule.fit"]}
{"id": "C15", "title": "Predictions do not depend on rule order nor on unselected rules", "statement": "Permuting the rules of a subpopulation, or adding unselected rules to the pool (padding the genome with zeros), or scaling the experience weight by a non-zero factor, does not change any prediction.", "quantifier": "all pools, genomes, permutations and inputs", "why_tests_cant": "all permutations", "anchors": ["suprb/solution/mixing_model.py", "suprb/solution/base.py::Solution.subpopulation", "suprb/solution/initialization.py::ZeroInit.pad"]}
{"id": "C16", "title": "The n-best filter keeps the n fittest rules", "statement": "The n-best filter returns min(n, size) rules of the subpopulation such that no dropped rule is fitter than a kept one.", "quantifier": "all subpopulations, all n>=0 (violated for n=0, which keeps everything)", "why_tests_cant": "all fitness vectors including ties", "anchors": ["suprb/solution/mixing_model.py::NBestFitness"]}
{"id": "C17", "title": "Solution measurements are truthful", "statement": "Fitting a solution records as complexity the number of selected rules, as error max(MSE of its prediction, 1e-4) and as input size the genome length; a genome whose length differs from the pool's is rejected with an error instead of being truncated.", "quantifier": "all genomes, pools and data", "why_tests_cant": "all genomes", "anchors": ["suprb/solution/base.py::Solution.fit", "suprb/solution/base.py::Solution.subpopulation"]}
{"id": "C18", "title": "Solution fitness is within its documented range and prefers accuracy and few rules", "statement": "Emary and Wu solution fitness lie in [0,100] for any solution over a pool no larger than the maximum genome length, strictly increase when the error shrinks at equal complexity and when complexity shrinks at equal error.", "quantifier": "all errors, complexities, pool limits and alphas in range", "why_tests_cant": "real inequalities over the whole domain", "anchors": ["suprb/solution/fitness.py", "suprb/fitness.py"]}
{"id": "C19", "title": "Copies of solutions are independent", "statement": "A cloned solution has its own genome: later in-place or wholesale changes of the original's genome never show in the clone and vice versa; a clone without changes keeps the measured values, a clone with a new genome does not.", "quantifier": "all object graphs and all later writes", "why_tests_cant": "aliasing: any later write to either object", "anchors": ["suprb/solution/base.py::Solution.clone", "suprb/optimizer/solution/archive.py::Elitist"]}
{"id": "C20", "title": "Padding keeps the selected rules", "statement": "When the pool grows, padding extends a genome to the pool's length without changing the bits it had; zero padding selects the same rules, random padding may only add new ones.", "quantifier": "all genomes, pool growths and random draws", "why_tests_cant": "all histories of growth", "anchors": ["suprb/solution/initialization.py::ZeroInit.pad", "suprb/solution/initialization.py::RandomInit.pad"]}
{"id": "C21", "title": "Genomes always fit the pool", "statement": "After every composition step every solution of the population and of the archive has a genome exactly as long as the pool, so predictions and measurements never fail on the length assertion.", "quantifier": "all runs: any number of iterations, any number of rules found per iteration, any random draws, each optimizer", "why_tests_cant": "histories of pool growth interleaved with random operators", "anchors": ["suprb/optimizer/solution/base.py", "suprb/optimizer/solution/archive.py", "suprb/solution/initialization.py"]}
{"id": "C22", "title": "The best solution is returned and never gets worse", "statement": "The elitist reported after a composition step is at least as fit as every member of population and archive, and with the elitist archive its fitness never decreases from one learning iteration to the next.", "quantifier": "all runs with a deterministic mixing model and a complexity-based fitness (violated without archive and with the pseudo-BIC fitness)", "why_tests_cant": "history property over arbitrary pool growth and random operators", "anchors": ["suprb/optimizer/solution/base.py::PopulationBasedSolutionComposition", "suprb/optimizer/solution/archive.py::Elitist"]}
{"id": "C23", "title": "Genetic algorithm keeps its elitists and its population size", "statement": "Within one run of the genetic algorithm with at least one elitist the best fitness never decreases, the n best solutions of a generation survive unchanged into the next one, and every generation has population size + number of elitists members.", "quantifier": "all populations, all random draws, any number of generations, odd and even sizes", "why_tests_cant": "all random draws and generations", "anchors": ["suprb/optimizer/solution/ga/base.py::GeneticAlgorithm._optimize"]}
{"id": "C24", "title": "Genome crossover recombines position-wise", "statement": "The child of a genome crossover has the parents' length and takes every bit from one of the parents at the same position; n-point crossover alternates the pieces between n cut points; uniform crossover may take either.", "quantifier": "all parents of equal length, all cut points and draws (alternation is violated for n >= 2)", "why_tests_cant": "all cut point sets", "anchors": ["suprb/optimizer/solution/ga/crossover.py"]}
{"id": "C25", "title": "Bit-flip mutation flips exactly the drawn positions", "statement": "Each bit of the mutant differs from the parent exactly where the draw is below the mutation rate; rate 0 copies, rate 1 complements; the parent's genome is unchanged.", "quantifier": "all genomes, rates and draws", "why_tests_cant": "all random draws", "anchors": ["suprb/optimizer/solution/ga/mutation.py::BitFlips"]}
{"id": "C26", "title": "Parent selection returns members of the population, biased to fitter ones as documented", "statement": "Every selection operator returns exactly n members of the population; a tournament winner is at least as fit as all members drawn with it; linear-rank weights are a probability distribution that never gives a fitter member less weight; roulette never picks a member of fitness 0 when others are positive.", "quantifier": "all populations, n and draws (roulette is violated for negative and for mixed-sign fitness values)", "why_tests_cant": "all draws and fitness vectors with ties", "anchors": ["suprb/optimizer/solution/ga/selection.py"]}
{"id": "C27", "title": "Self-adaptive rates stay in their configured range", "statement": "The crossover and mutation rates of the self-adaptive genetic algorithms stay inside the configured minimum and maximum (respectively [0,1]) in every generation.", "quantifier": "all runs and fitness histories (violated by the second variant: a child fitter than the recorded maximum gets a negative mutation rate, the similarity measure exceeds 1 and pushes the moving bounds out of range, and an equally fit population turns both bounds into NaN)", "why_tests_cant": "history property with feedback", "anchors": ["suprb/optimizer/solution/saga1/base.py", "suprb/optimizer/solution/saga2/base.py", "suprb/optimizer/solution/saga3/solution_extension.py", "suprb/optimizer/solution/saga3/crossover.py"]}
{"id": "C28", "title": "Ageing keeps a breeding population", "statement": "The self-adaptive solution composition with ageing never loses its whole population, so it can always produce parents for the next generation.", "quantifier": "all runs (violated)", "why_tests_cant": "history property over generations", "anchors": ["suprb/optimizer/solution/sas/selection.py::Ageing", "suprb/optimizer/solution/sas/base.py"]}
{"id": "C29", "title": "Ant colony pheromones stay in range and every rule stays selectable", "statement": "After every iteration all pheromone values lie in the configured interval and there is one pair per rule of the pool; a pool whose rules are equally fit still yields non-empty solutions.", "quantifier": "all runs and pools (selectability violated when all rule fitnesses are equal)", "why_tests_cant": "history property; division 0/0 only on degenerate pools", "anchors": ["suprb/optimizer/solution/aco/base.py", "suprb/optimizer/solution/aco/builder.py", "suprb/optimizer/solution/aco/pheromones.py"]}
{"id": "C30", "title": "Greedy food-source update of the bee colony never loses fitness", "statement": "In the employed and onlooker phases a food source is replaced only by a strictly fitter neighbour, otherwise its trial counter grows by one; a scout resets exactly the sources whose trials have reached the limit.", "quantifier": "all food sources, neighbours and histories", "why_tests_cant": "history property", "anchors": ["suprb/optimizer/solution/abc/base.py", "suprb/optimizer/solution/abc/food.py"]}
{"id": "C31", "title": "Swarm and wolf positions stay binary, personal bests never get worse", "statement": "Particle positions and wolf positions are bit strings of the pool's length, a particle's best solution never becomes less fit, and the binary mean of the positions has a one exactly where most of the particles have one.", "quantifier": "all runs and draws (the mean is violated: it counts against half the genome length)", "why_tests_cant": "history property; the mean only shows when particle count and genome length differ", "anchors": ["suprb/optimizer/solution/pso/base.py", "suprb/optimizer/solution/pso/movement.py", "suprb/optimizer/solution/gwo/base.py", "suprb/optimizer/solution/gwo/position.py"]}
{"id": "C32", "title": "Every rule in the pool was accepted and matches data", "statement": "Each rule that discovery adds to the pool satisfies the acceptance criterion (with the default: at least one matched sample and error at most the mean square of the targets over beta), is fitted on the training data, and discovery adds at most the requested number of rules.", "quantifier": "all discovery methods, all data, draws and configurations", "why_tests_cant": "all random draws; quantifies over everything discovery can return", "anchors": ["suprb/optimizer/rule/base.py::RuleDiscovery", "suprb/optimizer/rule/acceptance.py", "suprb/optimizer/rule/es/es.py", "suprb/optimizer/rule/rs/rs.py"]}
{"id": "C33", "title": "Evolution strategy keeps what its operator promises", "statement": "With '+' the rule returned is at least as fit as the initial rule and as every child produced; with '&' an early stop returns a rule at least as fit as every rule of the delay window; with ',' the returned rule is the initial rule or the best child of the last productive generation.", "quantifier": "all data, draws, lambda, delays and iteration counts, with Fittest selection (violated for the other selections)", "why_tests_cant": "loop over random children with a sliding window", "anchors": ["suprb/optimizer/rule/es/es.py::ES1xLambda._optimize"]}
{"id": "C34", "title": "Rule selection returns the best candidates", "statement": "Fittest selection returns the n fittest candidates; non-dominated selection only offers candidates no other candidate beats in both error and volume.", "quantifier": "all candidate lists including ties (non-dominance violated: the list is modified while it is iterated)", "why_tests_cant": "all candidate lists and orders", "anchors": ["suprb/optimizer/rule/selection.py"]}
{"id": "C35", "title": "Discovery starts from training samples, preferring badly covered ones", "statement": "Every origin handed to discovery is a training sample; with the matching-based origin a sample covered by no considered rule has the largest weight, and a sample covered by all of them is never drawn while another is not; the weights given to the generator are a probability distribution.", "quantifier": "all pools, elitists, data and draws (violated: the uniform input origin invents points inside the bounding box)", "why_tests_cant": "all coverage patterns", "anchors": ["suprb/optimizer/rule/origin.py"]}
{"id": "C36", "title": "Novelty search filters never starve and keep the non-dominated", "statement": "The minimal-criteria filters always keep at least one rule, the Pareto front keeps every non-dominated rule, novelty scores are means of normalised distances in [0,1].", "quantifier": "all archives and candidate lists (violated: exclusiveness of the Pareto front; local competition adds up to 1 on top of the mean distance; a rule can count itself among its nearest neighbours; a rule compared before is not compared with what entered the archive since, so its score is out of date)", "why_tests_cant": "all candidate lists", "anchors": ["suprb/optimizer/rule/ns/novelty_calculation.py", "suprb/optimizer/rule/ns/novelty_search_type.py", "suprb/optimizer/rule/ns/archive.py", "suprb/optimizer/rule/ns/ns.py"]}
{"id": "C37", "title": "Fitting never raises on a failing component and predicts zeros then", "statement": "If discovery or composition raises, fit still returns the estimator marked fitted, and predict returns one 0 per sample; if nothing raises, predict is the elitist's prediction; a later successful fit clears the error.", "quantifier": "all components, all failure points, all sequences of fits (violated: zero iterations raise out of fit)", "why_tests_cant": "every failure point", "anchors": ["suprb/suprb.py::SupRB.fit", "suprb/suprb.py::SupRB._catch_errors", "suprb/suprb.py::SupRB.predict"]}
{"id": "C38", "title": "The pool only grows and never exceeds the announced maximum", "statement": "During a fit rules are only appended to the pool, never modified or removed, and the pool never holds more than n_initial_rules + n_iter*n_rules rules, which is the maximum the fitness is normalised with.", "quantifier": "all configurations, histories and discovery results", "why_tests_cant": "history property", "anchors": ["suprb/suprb.py::SupRB._discover_rules", "suprb/suprb.py::SupRB.fit"]}
{"id": "C39", "title": "Fits with the same seed are reproducible and steps use distinct random streams", "statement": "Fitting twice with the same integer seed, on the same or on a fresh estimator, uses the same seed for each step; different steps and the two phases of a step use different seeds.", "quantifier": "all seeds, configurations and histories of fits (violated with initial rules: stale step counter, reused seed)", "why_tests_cant": "needs arbitrary histories of fits", "anchors": ["suprb/suprb.py::SupRB.fit", "suprb/suprb.py::SupRB._discover_rules", "suprb/utils.py"]}
{"id": "C40", "title": "Early stopping compares with the previous iteration", "statement": "With patience p>0 learning stops exactly when the elitist fitness failed to grow by more than delta over the previous iteration p times in a row; with patience<=0 it never stops early.", "quantifier": "all fitness histories, patiences and deltas (violated: the previous fitness is never updated)", "why_tests_cant": "all fitness histories", "anchors": ["suprb/suprb.py::SupRB.check_early_stopping"]}
{"id": "C41", "title": "Parallel discovery does not depend on scheduling", "statement": "The rules discovered by n independent runs, and their order, are the same for every number of jobs and every completion order.", "quantifier": "all schedules of the parallel runs, all batches, processes and threads (violated: threads with SigmaRange)", "why_tests_cant": "thread and process schedules", "anchors": ["suprb/optimizer/rule/base.py::ParallelSingleRuleDiscovery", "suprb/utils.py::spawn_random_states"]}
{"id": "C42", "title": "Cleanup and dumping do not change predictions", "statement": "After cleanup (or dumping, which cleans up) the fitted estimator predicts exactly what it did before, and cleaning up twice is harmless.", "quantifier": "all fitted estimators and inputs", "why_tests_cant": "all models and inputs", "anchors": ["suprb/suprb.py::SupRB._cleanup", "suprb/json.py::dump"]}
{"id": "C43", "title": "A saved model predicts the same after loading", "statement": "Dumping a fitted estimator and loading the file gives an estimator with the same rules (condition, coefficients, error, experience) and the same predictions on every input.", "quantifier": "all fitted estimators (violated when no rule is selected and when a filter or a nested component is configured)", "why_tests_cant": "all configurations and pools", "anchors": ["suprb/json.py"]}
{"id": "C44", "title": "Saved configuration is restored", "statement": "Loading restores every configured parameter of the estimator and its nested components, and terminates on every dumped configuration.", "quantifier": "all component trees (violated for parameterless nested components, prefix-colliding names and None values)", "why_tests_cant": "all component trees", "anchors": ["suprb/json.py::_save_config", "suprb/json.py::_load_config", "suprb/json.py::_update_same_base_keys"]}
{"id": "C45", "title": "The wrapper sets exactly the named parameters", "statement": "Each keyword of the wrapper sets exactly the (nested) parameter it names and nothing else, outer parameters before inner ones; unknown names are reported and leave the estimator unchanged; separate calls do not influence each other.", "quantifier": "all keyword sets and component trees (violated: unknown path segments are skipped, the default estimator is shared)", "why_tests_cant": "all nested paths", "anchors": ["suprb/wrapper.py"]}
{"id": "C46", "title": "Flattening keeps every leaf once and in order", "statement": "Flattening an arbitrarily nested iterable yields exactly its non-iterable elements in left-to-right order, strings count as elements.", "quantifier": "all finite nestings", "why_tests_cant": "arbitrary depth", "anchors": ["suprb/utils.py::flatten"]}
{"id": "C47", "title": "Logged metrics are within their meaning", "statement": "The share of matched training samples lies in [0,1] and is 1 exactly when every sample is matched by a selected rule; genome diversity is 0 exactly when all genomes are equal.", "quantifier": "all populations, pools and data", "why_tests_cant": "all populations", "anchors": ["suprb/logging/metrics.py", "suprb/logging/default.py"]}
{"id": "C48", "title": "Fitting leaves the configuration untouched", "statement": "fit works on copies: constructor parameters of the estimator and its components are the same after fitting as before, bounds that were given are used as given and only missing ones are estimated.", "quantifier": "all configurations (rule discoveries without a representation of their own) and data", "why_tests_cant": "all component trees", "anchors": ["suprb/suprb.py::SupRB._init_bounds", "suprb/suprb.py::SupRB._validate_rule_discovery", "suprb/suprb.py::SupRB._init_matching_type"]}
{"id": "C49", "title": "A step on an empty pool does not impair later steps", "statement": "If rule discovery finds nothing at first, the composition step on the empty pool leaves the optimizer able to continue: later steps run without error and with a population of the configured size.", "quantifier": "all runs whose first composition steps see an empty pool, each optimizer with warm start (violated: the one-member population left behind makes the ageing optimizer die out and the second self-adaptive variant fail on an index, and particle swarm, grey wolf and ant colony keep a population of one)", "why_tests_cant": "needs an unlucky discovery step followed by normal ones, for every optimizer", "anchors": ["suprb/optimizer/solution/base.py::PopulationBasedSolutionComposition", "suprb/optimizer/solution/saga2/base.py", "suprb/optimizer/solution/sas/base.py"]}
{"id": "C50", "title": "Breeding does not alter the parents", "statement": "Crossover and mutation leave every existing solution as it was, its genome as well as the rates it carries.", "quantifier": "all populations, operators, rates and draws (violated by the third self-adaptive variant, which overwrites the rates of a parent handed on without recombination)", "why_tests_cant": "aliasing depends on the draw that decides whether recombination happens", "anchors": ["suprb/optimizer/solution/ga/crossover.py", "suprb/optimizer/solution/saga3/crossover.py", "suprb/solution/base.py::Solution.clone"]}
{"id": "C51", "title": "Rule crossover only recombines the parents", "statement": "Uniform crossover of two rules returns two conditions that together hold, in every dimension, exactly the two bounds of the parents; every mix can occur, proper boxes stay proper boxes, and without crossover the parents come back unchanged.", "quantifier": "all parents, representations, rates and draws (violated: any representation but ordered bounds raises TypeError)", "why_tests_cant": "all parents and masks", "anchors": ["suprb/optimizer/rule/crossover.py"]}
{"id": "C52", "title": "A refused call of fit leaves the fitted model as it was", "statement": "When fit refuses its data (raises ValueError before learning starts), an unfitted estimator stays unfitted and a fitted estimator keeps its model and predictions.", "quantifier": "all histories of fits and all unusable data (violated: the fitted model is replaced by a placeholder before the data are checked, and predict silently answers zeros)", "why_tests_cant": "needs a refused call after a successful one", "anchors": ["suprb/suprb.py::SupRB.fit", "suprb/suprb.py::SupRB.predict"]}
{"id": "C53", "title": "Every documented kind of random_state is accepted", "statement": "fit accepts as random_state everything the documentation and check_random_state allow: None, a non-negative integer, or a generator.", "quantifier": "all kinds of random states (violated: a generator passes check_random_state and is refused by SeedSequence)", "why_tests_cant": "tests use integers only", "anchors": ["suprb/suprb.py::SupRB.fit", "suprb/utils.py::check_random_state"]}
{"id": "C54", "title": "The learned model is sound", "statement": "When fit succeeds with the library's own rule discovery and solution composition, every rule in the pool tells the truth about the training data, matches some sample and passes the acceptance criterion, and the learned elitist has one bit per rule and carries the error, complexity and fitness of its own prediction of the training data.", "quantifier": "all data, parameters, discoveries (ES, RS, NS), optimizers, mixing models, random states and earlier fits of the same object", "why_tests_cant": "whole learning runs with arbitrary random streams", "anchors": ["suprb/suprb.py::SupRB.fit", "suprb/optimizer/rule", "suprb/optimizer/solution"]}
{"id": "C55", "title": "Initial rules do not prevent learning", "statement": "Asking for initial rules never makes a fit fail that would have learned without them.", "quantifier": "all data, discoveries and parameters (violated: SquaredError origins, the default of RS and NS, ask an elitist that does not exist yet)", "why_tests_cant": "n_initial_rules is 0 in every test", "anchors": ["suprb/suprb.py::SupRB.fit", "suprb/optimizer/rule/origin.py::SquaredError"]}
{"id": "C56", "title": "Logging does not influence learning", "statement": "A fit with any logger ends in the same estimator as a fit without one, unless the logger raises; each member of a combined logger records what it would record alone; computing the training score for the log leaves the predictions of the model as they are.", "quantifier": "all loggers, components, data, parameters and earlier fits (violated for the last part: a random subpopulation filter draws from its own generator whenever a score is logged)", "why_tests_cant": "all loggers and whole learning runs", "anchors": ["suprb/logging", "suprb/suprb.py::SupRB.fit", "suprb/solution/mixing_model.py::FilterSubpopulation"]}
{"id": "C57", "title": "The configured representation is used by every component", "statement": "Whatever representation of conditions is configured for the estimator, fit can prepare the shipped components for it, and then every initialisation, mutation and crossover of the rule discovery holds this representation and uses its method for it.", "quantifier": "all component trees without representations of their own, and all representations (violated: the default mutation has a single sigma and fails for CenterSpread and MinPercentage, the crossover of NoveltySearch cannot take these representations at all)", "why_tests_cant": "all component trees and representations", "anchors": ["suprb/suprb.py::SupRB._init_matching_type", "suprb/optimizer/rule/generation_operator.py::GenerationOperator", "suprb/rule/initialization.py::RuleInit"]}
{"id": "C58", "title": "Parameters of combined loggers can be read and set", "statement": "get_params of a combined logger shows its members under their names and their parameters under name__parameter, to any depth; set_params with such a key changes exactly the parameter or member it names; other keys are refused and leave everything as it was; logging works on copies, and nested combined loggers are warned about.", "quantifier": "all trees of loggers with distinct proper names, all keys and values (violated: the warning never comes; names that occur twice or end in an underscore; a refused call with several keys has already replaced members)", "why_tests_cant": "all logger trees, names and keys", "anchors": ["suprb/logging/combination.py"]}
{"id": "C59", "title": "Predictions are made sample by sample and can be repeated", "statement": "What predict answers for a sample does not depend on the other samples of the batch, on their order or on earlier predictions: a fitted estimator is a function from samples to numbers, applied to each row, and predicting changes nothing.", "quantifier": "all fits with components of the library, all batches with the right number of features (violated for random subpopulation filters: each call of predict draws other rules)", "why_tests_cant": "all models, batches and orders", "anchors": ["suprb/suprb.py::SupRB.predict", "suprb/solution/mixing_model.py::ErrorExperienceHeuristic.__call__", "suprb/solution/mixing_model.py::FilterSubpopulation"]}
{"id": "C60", "title": "Samples with another number of features are refused", "statement": "predict raises a ValueError for samples whose number of features differs from that of the training data.", "quantifier": "all fits with components of the library and all batches (violated: one column is broadcast against the bounds in either direction, so samples no rule matches are answered with zeros; after a failed fit every width is accepted)", "why_tests_cant": "all models and batch shapes", "anchors": ["suprb/suprb.py::SupRB.predict", "suprb/rule/matching.py", "suprb/solution/mixing_model.py::ErrorExperienceHeuristic"]}
{"id": "C61", "title": "Every learned rule lies in the region its constraint allows", "statement": "After fit, every rule of the pool has limits in order, lies inside the region it is clipped to (the bounds the user gave, or the smallest region that holds the training samples), and is at least as wide as the minimum range asks for.", "quantifier": "all fits with a discovery of the library, any composition, data and random numbers (violated: unordered bounds are never clipped; clipped centres with intervals that reach out; a condition drawn beyond the edge is clipped to a single point although a minimum range is set)", "why_tests_cant": "all data, configurations and random numbers", "anchors": ["suprb/optimizer/rule/constraint.py", "suprb/suprb.py::SupRB._init_bounds", "suprb/optimizer/rule/es/es.py", "suprb/optimizer/rule/rs/rs.py", "suprb/optimizer/rule/ns/ns.py"]}
{"id": "C62", "title": "Parameters set afterwards act as if given to the constructor", "statement": "Whatever is changed with set_params or the wrapper between construction and fit: every component fit works with satisfies what its constructor asserts (an evolution strategy with '&' has delay below n_iter; novelty search has more than k_neighbor + 2 children) and has the attributes its constructor computes, computed from the parameters as they are now (current rates of the self-adapting algorithm, initial population size, weights of novelty and fitness). A value the constructor refuses is refused when it is set, None stands for the default as in the constructor, and a keyword the wrapper accepts without warning has an effect.", "quantifier": "all configurations of the library's components (rule discoveries without a representation of their own) and data (violated: set_params checks nothing, so fit raises an AssertionError; None set for a component makes fit raise a RuntimeError; a computed attribute is stale until fit; a wrapper keyword that names a computed attribute is ignored by fit)", "why_tests_cant": "all component trees and all orders of changing them", "anchors": ["suprb/optimizer/rule/es/es.py::ES1xLambda.__init__", "suprb/optimizer/rule/ns/ns.py::NoveltySearch.__init__", "suprb/optimizer/rule/ns/novelty_calculation.py::NoveltyFitnessBiased", "suprb/optimizer/solution/saga2/base.py", "suprb/optimizer/solution/sas/base.py", "suprb/base.py::BaseComponent", "suprb/wrapper.py"]}
{"id": "C63", "title": "Learning goes on where the model found so far is weak", "statement": "Each rule discovery of a fit is given the best model the composition before it left, with all rules found so far. With origins by matching, every new rule covers a training sample that a rule of that model misses (if there is one); with origins by error, a training sample that the model predicts wrongly (if there is one).", "quantifier": "all fits, all data, compositions, loggers and random numbers; the second part for the evolution strategy with a widening mutation and for random search, with ordered bounds, both constraints and an initialisation around the origin (violated by a mutation that moves the condition)", "why_tests_cant": "all data, configurations and random numbers", "anchors": ["suprb/suprb.py::SupRB._discover_rules", "suprb/optimizer/rule/origin.py", "suprb/optimizer/rule/es/es.py", "suprb/optimizer/rule/rs/rs.py", "suprb/optimizer/rule/base.py"]}
{"id": "C64", "title": "Rounding does not lose samples", "statement": "In double precision, too: enforcing the minimum width and growing a rule never take a matched sample away; a freshly made and constrained rule matches the sample it was made around; a constrained rule lies in the region with its bounds in order; a number drawn uniformly between two doubles lies between them; every interval is at least the minimum width wide afterwards; a MinPercentage condition that takes all of the way up to 1 matches every sample from its lower bound to 1; and conditions with explicit bounds decide exactly as without rounding.", "quantifier": "all finite doubles and all drawn amounts (violated: around large feature values the minimum width is absorbed and the rule stays a point, the width is right up to a relative error of 2^-53; MinPercentage can miss a sample at 1)", "why_tests_cant": "all doubles, among them those where rounding matters", "anchors": ["suprb/rule/matching.py", "suprb/optimizer/rule/constraint.py", "suprb/rule/initialization.py", "suprb/optimizer/rule/mutation.py", "suprb/optimizer/rule/origin.py"]}
{"id": "C65", "title": "Predictions in double precision", "statement": "In double precision, too, the prediction for a sample is the weighted mean of the predictions of the rules that match it up to an explicitly bounded rounding error, lies between the smallest and the largest of them, and is the prediction of the rule if only one matches, however large the targets are.", "quantifier": "all samples and up to 2^50 rules; weights between 2^-100 and 2^100, predictions 0 or between 2^-900 and 2^500 in size (violated: a single rule's prediction can come out as the next double; if a rule's error overflows its weight becomes 0 and the prediction 0)", "why_tests_cant": "all doubles and numbers of rules", "anchors": ["suprb/solution/mixing_model.py", "suprb/rule/base.py", "suprb/solution/base.py"]}
{"id": "C66", "title": "Volumes and fitness values in double precision", "statement": "In double precision, too: the share of the input space that a rule inside it covers lies between 0 and 1; a rule that contains another one has no smaller volume; the fitness of rules and of solutions (Emary and Wu) lies between 0 and 100; Wu's and Emary's functions stay between 0 and 1 when their arguments do; and of two rules of equal volume the one with the smaller error has the larger fitness.", "quantifier": "all input spaces and rules with finite bounds whose space has a finite, positive volume, all errors from 1e-4 on, all alpha in [0, 1], any np.exp that is between 0 and 1 - 2^-13 below -0.0002 (violated: Wu's function can exceed 1 by one rounding; with 1024 features scaled to [-1, 1] the volume overflows and fitness values are NaN; errors above 373 all give the same fitness)", "why_tests_cant": "all doubles, among them those where rounding matters", "anchors": ["suprb/fitness.py", "suprb/rule/fitness.py", "suprb/solution/fitness.py", "suprb/rule/matching.py"]}
{"id": "C67", "title": "Errors in double precision", "statement": "In double precision, too, the error of a rule or solution is the mean squared error of its predictions, but at least 1e-4, up to an explicitly bounded relative rounding error, whatever the order in which numpy adds the squares; and it does not depend on the order of the samples.", "quantifier": "all up to 2^50 targets and predictions up to 2^400 in size, all orders of addition (violated: the order of the samples can change the last digits of the error; the difference is bounded)", "why_tests_cant": "all doubles and all orders", "anchors": ["suprb/rule/base.py", "suprb/solution/base.py"]}
{"id": "C68", "title": "Drawing by weights in double precision", "statement": "In double precision, too, drawing by weights (origins of rules, selection of rules and solutions, onlooker bees) works: numpy accepts the probabilities that the code computes, whatever is rounded and in whatever order the weights are added; what is drawn has a weight above 0; everything with a weight above 0 can be drawn; the probability of each is its weight divided by the sum, up to an explicitly bounded rounding error; and when all weights are 0 there is no bias instead of an error.", "quantifier": "all up to 2^20 non-negative double weights with a positive sum up to 2^900, all orders of addition, all random numbers in [0, 1) (violated: a weight below 2^-53 of the others is never drawn; weights whose sum overflows raise ValueError; squared errors below 2^-1075 count as 0; with all weights 0 the selection of rules and the onlooker bees divide 0 by 0 and numpy raises ValueError)", "why_tests_cant": "all weights, all orders of addition and all random numbers; the bounds concern the last binary digits", "anchors": ["suprb/optimizer/rule/origin.py", "suprb/optimizer/rule/selection.py", "suprb/optimizer/solution/ga/selection.py", "suprb/optimizer/solution/abc/base.py"]}
{"id": "C69", "title": "Rates, pheromones and means in double precision", "statement": "In double precision, too: the rates of saga1 stay between their configured limits in every generation and move in the documented direction; the rates of saga2 lie between their limits; means of fitness values lie between the smallest and the largest value and are exact up to an explicitly bounded error, so that equally fit solutions are recognised; and pheromones lie between their limits after every iteration, fall where no ant passes and never fall because of one.", "quantifier": "all doubles as limits (between 0 and 1 for saga2), multipliers from 1 on, fitness values between 0 and 100, up to 2^20 solutions, all orders of addition, all diversity measures including NaN (violated: saga2's rates can leave their limits by a rounding error of the last digit; the mean of three solutions of fitness 0.1 exceeds 0.1, so that saga1's measure exceeds 1 and saga2 gives equally fit solutions the largest mutation and the smallest crossover rate instead of the opposite)", "why_tests_cant": "all doubles, all orders of addition and unboundedly many generations", "anchors": ["suprb/optimizer/solution/saga1/base.py", "suprb/optimizer/solution/saga2/crossover.py", "suprb/optimizer/solution/saga2/mutation.py", "suprb/optimizer/solution/aco/base.py", "suprb/logging/default.py"]}
{"id": "C70", "title": "Ants avoid overlap and mark what the best of them selected", "statement": "In the complete graph an ant weighs a further rule by how much it overlaps the rules it is compared with (all selected ones, or the last one): the share is the volume matched by both divided by the smaller volume, lies between 0 and 1, is 0 for rules that match nothing in common and 1 exactly if one rule lies within the other; a rule has no chance exactly if this holds for all of them, and more overlap never makes a rule more likely. After an iteration the pheromones have evaporated, exactly the n_best fittest ants have marked the rules they selected and left out with their fitness times c, and everything lies between the limits.", "quantifier": "all pools of ordered rules with positive volume, all routes, both modes, all positive pheromones, all roots and powers that are increasing, all populations and random numbers (violated: center-spread arrays are read as if they held limits, so that a rule within another one gets a negative share; a rule of volume 0 compared with itself gives NaN)", "why_tests_cant": "all pairs of boxes in all dimensions, all routes and all pheromone matrices", "anchors": ["suprb/optimizer/solution/aco/builder.py", "suprb/optimizer/solution/aco/base.py", "suprb/optimizer/solution/aco/pheromones.py"]}
{"id": "C71", "title": "Printed progress, warnings and text forms", "statement": "What fit prints and warns about does not influence it and tells the truth: below level 4 there is no progress, from level 4 on exactly one line per discovery and composition with the number of the iteration; a fit that ends in the error state says so exactly once and at its end, naming the exception of the component that failed and calling it a ValueError exactly if it is one, and no other fit does; the warning about an empty population comes once for each discovery that left it empty; stopping early is announced with the elitist's fitness. The text of a fitted rule or model shows its error, its fitness and its experience or complexity; a clone of a rule has its condition and nothing that was learned.", "quantifier": "all levels, rule discoveries, compositions, loggers, parameters and data, all states left by earlier fits (violated: the fitness reported when stopping early is always 0; the warning about the empty population announces that the composition will be skipped, but it is called; the initial rules of a second fit are announced with the last iteration of the first, possibly beyond the number of iterations; a rule that matched nothing, and the placeholder model after an error, have no text: str() raises TypeError)", "why_tests_cant": "all components and all points at which they can fail, all sequences of iterations; output is rarely compared at all", "anchors": ["suprb/suprb.py", "suprb/base.py", "suprb/rule/base.py", "suprb/solution/base.py"]}
{"id": "C72", "title": "Particles and wolves move by the documented formulas", "statement": "In every coordinate a classical particle gets the velocity a*v + b*r1*(own best - x) + c*r2*(target - x) limited to v_max and moves by it within [0, 1]; a quantum particle jumps from its own position or the target, chosen by a coin, by a*|mean - x|*log(1/u) up or down; every coordinate of every particle has its own random numbers, the target is the position of the particle fittest at the moment, and the genome is drawn from the new position through the sigmoid. A particle at rest in the best position stays there, and without inertia and with pulls of at most one no particle flies past the point that draws it. A wolf takes each bit from a drawn leader's proposal, or draws it from the mean of |leader - A*D| over the leaders, which are the n_leaders fittest. The weight of the inertia and the range of the wolves fall linearly to a_min and 0 after the last iteration.", "quantifier": "all swarms with positions in the unit box and fitness that is a number, all parameters, packs, genomes and random numbers, all sigmoids and finite logarithms (violated: a_min is not the weight at the last iteration; the swarm is drawn to the currently fittest particle even if a better position has been found; the random number 0 leaves a quantum particle without a position)", "why_tests_cant": "all positions, velocities, swarms and random numbers; a wrong pull still gives valid genomes", "anchors": ["suprb/optimizer/solution/pso/movement.py", "suprb/optimizer/solution/pso/base.py", "suprb/optimizer/solution/gwo/position.py", "suprb/optimizer/solution/gwo/base.py", "suprb/optimizer/solution/utils.py"]}
{"id": "C73", "title": "The random filters of the mixing model keep the requested number of rules", "statement": "NRandom keeps min(rule_amount, number of rules) different rules of the solution, any selection is possible, and it never fails; RouletteWheel does the same among the rules of positive fitness. The prediction is mixed from the kept rules alone; a random filter for at least as many rules as there are changes no prediction, one for none predicts zero, and so does an experience capped at zero.", "quantifier": "all sets of measured rules, data and random numbers (violated: the roulette raises a ValueError when fewer rules than requested have a positive fitness or one matched no sample, so that a solution cannot predict)", "why_tests_cant": "all selections; the default tape hides the failing wheel", "anchors": ["suprb/solution/mixing_model.py::NRandom", "suprb/solution/mixing_model.py::RouletteWheel", "suprb/solution/mixing_model.py::CapExperience"]}
{"id": "C74", "title": "Bees choose partners and move by the documented formulas", "statement": "In an iteration of the bee colony each employed bee's partner is any source with equal chance and each onlooker's partner is drawn with share fitness / sum of fitness, measured after the employed phase; every source is visited once per phase, and exactly those whose counter has reached the limit are re-initialised. The sigmoid update moves each bit by a factor in [-1, 1] times the difference to the partner and draws the bit from the sigmoid; the bitwise update turns a bit with a coin where one of the two sources has the rule; dimension flips take ceil(rate * length) bits from the partner, any such set being possible, and refuse rates that ask for fewer than none or more than all. Documented and refuted: that onlookers prefer fitter sources (with negative fitness they prefer the less fit), and that an iteration on measured sources cannot fail (it raises ValueError when every fitness is zero).", "quantifier": "all genomes, partners, rates, generator states, sizes of the colony and fitness values", "why_tests_cant": "The updates are random; a test samples a few outcomes and cannot see which outcomes are possible or excluded, and the failing wheel needs a population of equal zero fitness.", "anchors": ["suprb/optimizer/solution/abc/food.py::Sigmoid", "suprb/optimizer/solution/abc/food.py::DimensionFlips", "suprb/optimizer/solution/abc/base.py::ArtificialBeeColonyAlgorithm"]}
{"id": "C75", "title": "With workable settings fit always succeeds", "statement": "Take an evolution strategy, a random search or a novelty search as rule discovery, any of the solution compositions but the one with ageing solutions and the binary quantum swarm, and settings their documentation allows: an initialisation and a mutation with a variant for the representation and no negative step size, a selection that is not roulette for the evolution strategy, ordered bounds or no crossover for the novelty search, a positive delay below the number of generations with the '&' operator, populations, numbers of leaders and rules that are not zero, step factors that are not zero, dimension-flip rates between 0 and 1, positive fitnesses for bees, an acceptance with a finite error bound, and a second self-adapting algorithm that starts its population afresh or keeps at most one elitist. Then no call of discovery or composition raises an exception, whatever the data, the random numbers and the number of rules; every composition step leaves an elitist; fit returns without entering the error state, with or without cleaning up; and the model predicts every non-empty table with the same number of features, one value per sample.", "quantifier": "all training data with at least one sample and feature, all local models and fitness functions, all random numbers, all numbers of iterations, with and without archive, warm start and early stopping (violated by settings the constructors accept: a delay of 0 with '&', roulette selection in an evolution strategy, and the second self-adapting algorithm with warm start after a step without rules, all end in an IndexError; the binary quantum swarm may divide by zero; bees cannot choose when all fitnesses are zero; novelty search cannot cross rules that are not given by ordered bounds; with an infinite error bound rules without matches enter the pool and predictions of samples that they match raise)", "why_tests_cant": "total correctness: all data, seeds and settings; a rare combination that raises puts the estimator into the error state silently", "anchors": ["suprb/optimizer/rule/es/es.py::ES1xLambda", "suprb/optimizer/rule/rs/rs.py::RandomSearch", "suprb/optimizer/rule/ns/ns.py::NoveltySearch", "suprb/optimizer/solution/base.py::PopulationBasedSolutionComposition", "suprb/optimizer/solution/ga/base.py::GeneticAlgorithm", "suprb/optimizer/solution/saga2/base.py::SelfAdaptingGeneticAlgorithm", "suprb/suprb.py::SupRB.fit", "suprb/suprb.py::SupRB.predict"]}
{"id": "C76", "title": "Novelty search breeds generation by generation", "statement": "Each generation of novelty search takes at most lambda parents from the population, crosses them two at a time into two children each, and mutates, constrains and fits every child. If some child matches data, the most novel matching children (at most mu) and the most novel parents (at most n_elitists) form the next population, and at most roh of the matching children enter the archive, the most novel ones with the novelty archive; otherwise nothing changes. No rule that exists is altered. The rules a search returns are distinct children of the last successful generation that match data, at most mu of them, and none belongs to the pool or to the initial population.", "quantifier": "all data, local models, settings of novelty search that numpy accepts, pools of rules found by novelty search, random numbers and numbers of iterations (violated: with an odd lambda one child fewer is made; distances_ and idx_ stay on the rules that enter the pool)", "why_tests_cant": "all populations, archives and draws over any number of generations", "anchors": ["suprb/optimizer/rule/ns/ns.py::NoveltySearch", "suprb/optimizer/rule/ns/archive.py"]}
{"id": "C77", "title": "fit notices exactly the unusable settings, and the repository's own configurations behave as its tests expect", "statement": "Over usable data, fit with the evolution strategy, with random search or with novelty search (choosing parents by fitness, at random or by dominance) never raises: it ends with a learned model if the rule initialisation, the mutation and novelty search's crossover have a variant for the chosen representation and step sizes that are not negative, and otherwise ends with is_error_ set, an empty pool and zero predictions. Each of the sixty combinations of tests/test_matching_functions.py fails exactly where the test expects it to; each of the thirty-six novelty search settings of tests/test_ns.py and each configuration of the examples learns a model on any table; the assertions of tests/test_mixing_model.py hold for its rules in every order and every random generator, as far as they do not depend on the stream of numbers.", "quantifier": "all data, local models, estimators fitted before, random numbers and loggers; settings whose arrays of step sizes are given only to representations with two kinds of parameters", "why_tests_cant": "the tests run one table with one seed; the theorems cover every table and every stream of random numbers", "anchors": ["suprb/suprb.py::SupRB.fit", "suprb/rule/initialization.py::NormalInit", "suprb/optimizer/rule/mutation.py::Normal", "suprb/optimizer/rule/es/es.py::ES1xLambda", "suprb/optimizer/rule/rs/rs.py::RandomSearch", "suprb/optimizer/rule/ns/ns.py::NoveltySearch", "suprb/solution/mixing_model.py::NBestFitness"]}
{"id": "C78", "title": "What is learned does not depend on the order of samples or features, nor on unmatched samples", "statement": "A rule fitted on two data sets whose matched samples agree is the same in model, error, fitness, experience and predictions. If the samples are given in another order, or their features are reordered together with the conditions, or a condition is written in another representation of the same box, then the fitted rules agree in predictions, error, fitness and experience, solutions made of them get the same error, complexity and fitness from the same random numbers (or raise the same exception), and the predictions agree for every sample. Conditions given by lower limit and percentage do not agree in volume, so their fitness differs.", "quantifier": "all data, conditions, local models that do not depend on order, mixing models with all filters and all random numbers", "why_tests_cant": "invariance under reordering concerns pairs of runs over every permutation of every table; a test compares a few fixed runs", "anchors": ["suprb/rule/base.py::Rule.fit", "suprb/rule/matching.py", "suprb/solution/mixing_model.py", "suprb/solution/base.py::Solution.fit"]}
{"id": "C79", "title": "A shift or a rescaling of the targets carries over to the rules and the predictions", "statement": "If c is added to all targets, a fitted rule keeps error, fitness and experience and predicts c more; filters keep the same rules, and a solution predicts c more wherever one of them matches and 0 as before elsewhere, so a solution that matches every sample keeps its measurements (one that does not, changes its error). If all targets are multiplied by k and no error is at its lower limit of 1e-4, the error of every rule grows by k*k and a solution without a filter predicts k times as much everywhere; an exact rule breaks this, because the limit does not scale.", "quantifier": "all data, conditions, genomes, random numbers, factors and offsets; local models that follow the change, as linear regression does; positive weights", "why_tests_cant": "a relation between two runs for all offsets, factors and tables; a test compares two runs", "anchors": ["suprb/rule/base.py::Rule.fit", "suprb/solution/mixing_model.py", "suprb/solution/base.py::Solution.fit"]}
{"id": "C80", "title": "The examples print every parameter of the fitted estimator that is not ignored", "statement": "get_params of the examples ends and lists one entry per name: every attribute, at any depth, that holds no object and none of whose names on the way contains an ignored keyword, under the names joined by two underscores; log_scores prints exactly those whose joined name contains no keyword either, provided no two attributes get the same joined name. Violated: with the default ignore_keywords=None it raises; a trailing and a leading underscore can give two attributes one name, and one of them is lost; the classes of components are not printed.", "quantifier": "all finite trees of objects and all lists of keywords", "why_tests_cant": "no test runs the examples; which attributes a fitted estimator has depends on its components", "anchors": ["examples/utils.py::get_params", "examples/utils.py::log_scores"]}
{"id": "C81", "title": "The units of the features do not matter once the step sizes are converted", "statement": "If every feature t is replaced by a*t+b (one factor a > 0 for all features, an offset for each) in the training data and in the data to predict, and the step sizes of initialisation and mutation, the minimal range and the given bounds are converted as well, then with the same seed the ordered-bound representation finds the same rules (converted conditions, identical error, fitness, experience and predictions), every optimizer that does not read bounds composes the same solutions, the loggers write the same metrics, the error state is the same, and predict answers the same numbers. Step sizes that are not converted change what is learned.", "quantifier": "all data, factors, offsets, seeds, numbers of iterations and histories of fit calls; evolution strategy, random search and novelty search with every origin, selection, acceptance, initialisation, mutation and constraint; every optimizer except the ant colony with the Complete builder; local models and fitness that do not depend on the units", "why_tests_cant": "a relation between two whole learning runs for all data, factors and random numbers", "anchors": ["suprb/suprb.py::SupRB", "suprb/rule/matching.py::OrderedBound", "suprb/optimizer/rule/es/es.py::ES1xLambda", "suprb/optimizer/rule/rs/rs.py::RandomSearch", "suprb/optimizer/rule/ns/ns.py::NoveltySearch", "suprb/optimizer/rule/mutation.py::RuleMutation", "suprb/optimizer/rule/constraint.py::CombinedConstraint", "suprb/rule/initialization.py::RuleInit", "suprb/solution/mixing_model.py::ErrorExperienceHeuristic"]}
{"id": "C82", "title": "A fit with more iterations goes on where the shorter one ends", "statement": "With the same data, seed and other parameters, raising n_iter does not change the first iterations: every step, pool, population and best solution shown to the logger, and the final pool, begin with those of the shorter fit, and the shorter fit's model is the one the longer fit had after as many iterations. A fit that stopped early or ended in the error state ends in the same way, with the same model and predictions, when more iterations are allowed. This needs a solution fitness that does not read the announced maximum (n_rules * n_iter + n_initial_rules): PseudoBIC does not, but with ComplexityEmary or ComplexityWu a larger n_iter changes the fitness values, and a fit that was stopped early can go on.", "quantifier": "all data, seeds, parameters, rule discoveries, solution compositions whose fitness ignores the announced maximum, estimators whose step_ is below n_iter (every fresh one), with and without initial rules and early stopping", "why_tests_cant": "a relation between two whole learning runs for all data, components and numbers of iterations", "anchors": ["suprb/suprb.py::SupRB", "suprb/solution/fitness.py::PseudoBIC", "suprb/solution/fitness.py::ComplexityEmary", "suprb/logging/base.py::BaseLogger"]}
{"id": "C83", "title": "Only the order of the fitness values matters", "statement": "If the fitness of rules and of solutions is put on another scale that keeps the order of any two values, learning takes the same course: rule discovery by the evolution strategy or random search finds the same rules, the optimizers (genetic algorithm with random, linear rank or tournament selection, random search, SAGA3, particle swarm, grey wolves) leave the same genomes, population and archive, and calls of fit leave the same step, error state, pool, elitist and predictions; only the fitness values themselves, and what the logger writes about them, differ. If the new scale is multiplication by a positive number, the same holds with the roulette wheels (of the genetic algorithm, the rule selection and the mixing model's filter) and with SAGA1, SAS and the bee colony, since they use quotients, medians and comparisons of the values only. For other scales the roulette wheels are excluded, and early stopping is always, since it compares improvements with a number; for each a case is shown in which the scale changes the outcome.", "quantifier": "all order-preserving functions (that keep minus infinity, for rules), data, seeds, local models, selections other than roulette and mixing models without a roulette filter (all of them for multiplication by a positive number), calls without early stopping", "why_tests_cant": "a relation between two whole learning runs for all data, random draws and all order-preserving functions", "anchors": ["suprb/suprb.py::SupRB", "suprb/optimizer/rule/es/es.py::ES1xLambda", "suprb/optimizer/rule/rs/rs.py::RandomSearch", "suprb/optimizer/solution/ga/base.py::GeneticAlgorithm", "suprb/optimizer/solution/archive.py::Elitist", "suprb/solution/mixing_model.py::NBestFitness"]}
{"id": "C84", "title": "Giving every training sample several times", "statement": "If every training sample is given k times, a condition fitted on the data yields the same rule (same match set per sample, predictions, error and fitness, k times the experience), it is accepted into the pool in the same cases, the bounds read off the data are the same, a genome over such rules predicts the same for all data and has the same error, complexity, fitness and coefficient of determination, and as the place of a new rule each copy of a sample has one k-th of the probability of the sample. This needs local models that do not depend on the number of copies (least squares, not ridge regression) and a mixing model without limits on the experience and without roulette filter; cases are shown in which a limited experience, and a regularised local model, change the predictions.", "quantifier": "all k > 0, data, conditions, genomes, local models unaffected by copies, fitness functions, random draws", "why_tests_cant": "a relation between two data sets for all data, all numbers of copies and all local models of a kind", "anchors": ["suprb/rule/base.py::Rule", "suprb/solution/base.py::Solution", "suprb/solution/mixing_model.py::ErrorExperienceHeuristic", "suprb/optimizer/rule/acceptance.py::Variance", "suprb/optimizer/rule/origin.py::SquaredError", "suprb/utils.py::estimate_bounds"]}
{"id": "C85", "title": "The experience_weight of the mixing model has no influence", "statement": "For two mixing models that differ only in experience_weight, both weights different from 0 and no negative upper limit on the experience, every genome over fitted rules predicts the same and has the same error, complexity and fitness; new rules start at the same places and all three rule discoveries find the same rules; any history of fits with any of the ten solution optimizers leaves the same pool, genomes, measurements and status, early stopping included, predicts the same, and the default logger writes the same values. Only the weight 0 is different: it makes the predictions 0.", "quantifier": "all pairs of nonzero weights, filters and limits of the mixing model, rules, genomes, data, local models, fitness functions, configurations of the discoveries, histories of fits, random draws", "why_tests_cant": "a parameter without influence can only be seen in single runs by testing; the relation holds for all data, weights and random draws", "anchors": ["suprb/solution/mixing_model.py::ErrorExperienceHeuristic", "suprb/solution/base.py::Solution", "suprb/optimizer/rule/origin.py::SquaredError", "suprb/optimizer/rule/ns/ns.py::NoveltySearch", "suprb/suprb.py::SupRB"]}
{"id": "C86", "title": "A fit stopped early is the fit with that many iterations", "statement": "When early stopping ended a fit, fitting without early stopping and with exactly as many iterations gives the same pool, model, components, logs and predictions, provided the fitness of solutions ignores the announced maximal genome length; with a fitness that looks at it (ComplexityEmary) this is false, because the maximum is announced from n_iter. Early stopping that did not cut a fit short leaves everything but its counter as without it, whatever the fitness. More patience, or a smaller delta, never ends learning earlier: the pool and everything logged by the impatient fit is how the patient one begins.", "quantifier": "all rule discoveries, solution compositions and loggers, all data, seeds, settings and previous states of the estimator, all patience and delta values", "why_tests_cant": "a test compares one patience on one data set; a difference between stopping and ending shows only in runs where stopping strikes in a particular iteration", "anchors": ["suprb/suprb.py::SupRB.fit", "suprb/suprb.py::SupRB.check_early_stopping"]}
{"id": "C87", "title": "Without warm start a composition step starts afresh", "statement": "With warm_start=False and no archive, a call of optimize() on the solution composition generates its solutions new: the population it ends with (genomes, measured values, further attributes of the solutions), its elitist, the state of the random generator or the exception raised depend on the pool, data and seed of this call only, not on the population or on any number of earlier calls. For all ten optimizers this holds given the optimizer's own attributes; the genetic algorithm, random search, SAGA3, bee colony, particle swarm, grey wolves and ants (whose pheromones are reset) keep none that matter. SAGA1 and SAGA2 keep their adapted rates and SAS the number of parents of the last generation, so earlier calls do change their result (refuted). Hence, with one of the forgetful optimizers, the model two fits end with is the same if their final pool and last step are, with the same data, seed and iteration numbers, however and whenever the rules were found. With an archive, earlier calls have an influence through the one archived solution (and the optimizer's attributes) only; that influence exists.", "quantifier": "all optimizers and settings, pools, data, seeds, earlier calls of optimize, solutions already existing", "why_tests_cant": "a relation between runs after arbitrary different histories", "anchors": ["suprb/optimizer/solution/base.py::PopulationBasedSolutionComposition", "suprb/optimizer/solution/aco/base.py::AntColonyOptimization", "suprb/optimizer/solution/saga1/base.py::SelfAdaptingGeneticAlgorithm", "suprb/optimizer/solution/sas/base.py::SasGeneticAlgorithm", "suprb/suprb.py::SupRB"]}
{"id": "C88", "title": "Pool and elitist are all that a fit carries from one step to the next", "statement": "Without warm start and archive, and with an optimizer that forgets (genetic algorithm, random search, SAGA3, bees, particle swarm, wolves, ants without warm start), two estimators at the same point of a fit that agree in everything but the solution composition, and whose elitists are the same, continue alike for any remaining iterations: the same exception or none, the same pool, logs, early stopping, final model and predictions, whatever their populations are. Evolution strategy and random search as rule discovery change no attribute of their own, so pool, elitist and the counters and seeds of fit are all that is carried over. With warm start, the default, the rest of the population matters (refuted).", "quantifier": "all remaining iterations, pools, populations, data, seeds, discoveries, loggers, forgetful optimizers", "why_tests_cant": "a relation between two runs from arbitrary intermediate states that agree in part", "anchors": ["suprb/suprb.py::SupRB", "suprb/optimizer/solution/base.py::PopulationBasedSolutionComposition", "suprb/optimizer/rule/base.py::ParallelSingleRuleDiscovery"]}
{"id": "C89", "title": "A composition step sees of earlier solutions only those it holds", "statement": "With or without warm start and archive and for all ten optimizers, a call of optimize() on the solution composition depends on the solutions created before only through the members of its population and archive: their genomes, measured values and further attributes, and which of them are the same object or share a genome array. Where solutions are stored, in which order they were created, and solutions that were dropped from the population or never belonged to it, have no influence on the new population, archive, elitist, random numbers or exceptions; and what the call leaves behind looks the same again. Identity does matter: a population holding one object twice can end otherwise than one holding two equal objects.", "quantifier": "all optimizers and settings, heaps, populations, archives, pools, data, seeds", "why_tests_cant": "a relation between runs on arbitrary heaps that agree in the reachable part", "anchors": ["suprb/optimizer/solution/base.py::PopulationBasedSolutionComposition", "suprb/optimizer/solution/archive.py::Elitist", "suprb/solution/base.py::Solution", "suprb/optimizer/solution/ga/base.py::GeneticAlgorithm"]}
