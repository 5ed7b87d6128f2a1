(* Settings with which the components of the library never raise. *)
From Verif Require Import PyNum PyList PyMon PyRng M_Matching M_Rule M_RuleGen M_Mixing M_Discovery S_Discovery M_Novelty S_Novelty M_Solution M_Composition M_GenomeOps M_GA M_Saga M_Aco M_Abc M_Swarm M_Fit S_Fit M_Shipped M_Logging.

(* the initialisation has a variant for the representation, and its step sizes are not negative *)
Definition init_works (i : rule_init) (t : mtype) : Prop :=
  match i, t with
  | MeanInit, _ => True
  | NormalInit (Scalar s), (OrderedBound | UnorderedBound) => 0 <= s
  | NormalInit (Pair s0 s1), (CenterSpread | MinPercentage) => 0 <= s0 /\ 0 <= s1
  | HalfnormInit s, (OrderedBound | UnorderedBound) => 0 <= s
  | _, _ => False
  end.
(* the same for the mutations; uniform noise takes any step size *)
Definition mutation_works (mu : mutation) (t : mtype) : Prop :=
  match mu, t with
  | MutNormal (Scalar s), (OrderedBound | UnorderedBound) => 0 <= s
  | MutNormal (Pair s0 s1), (CenterSpread | MinPercentage) => 0 <= s0 /\ 0 <= s1
  | MutHalfnorm (Scalar s), (OrderedBound | UnorderedBound) => 0 <= s
  | MutHalfnormIncrease (Scalar s), OrderedBound => 0 <= s
  | MutHalfnormIncrease (Pair s0 s1), (CenterSpread | MinPercentage) => 0 <= s0 /\ 0 <= s1
  | MutUniform (Scalar _), (OrderedBound | UnorderedBound) => True
  | MutUniform (Pair _ _), (CenterSpread | MinPercentage) => True
  | MutUniformIncrease (Scalar _), OrderedBound => True
  | MutUniformIncrease (Pair _ _), (CenterSpread | MinPercentage) => True
  | _, _ => False
  end.
(* SigmaRange: both ends of the range work *)
Definition rmutation_works (mu : rmutation) (t : mtype) : Prop :=
  match mu with
  | Mut mu => mutation_works mu t
  | MutRange mu low high => mutation_works (with_sigma mu (Scalar low)) t /\ mutation_works (with_sigma mu (Scalar high)) t
  end.
(* an evolution strategy: roulette may come back empty-handed; "&" compares with the elitist es_delay generations ago *)
Record es_works (c : escfg) : Prop := {
  esw_init : init_works (d_init (es_d c)) (d_type (es_d c));
  esw_mut : rmutation_works (es_mut c) (d_type (es_d c));
  esw_sel : es_sel c <> RRoulette;
  esw_delay : es_operator c = EsAnd -> (0 < es_delay c)%nat /\ (es_delay c < es_iter c)%nat }.
(* random search: there is something to select from *)
Record rs_works (c : rscfg) : Prop := {
  rsw_init : init_works (d_init (rs_d c)) (d_type (rs_d c));
  rsw_gen : (0 < rs_generated c)%nat }.
(* novelty search: only ordered bounds can be crossed *)
Record ns_works (c : nscfg) : Prop := {
  nsw_init : init_works (d_init (ns_d c)) (d_type (ns_d c));
  nsw_mut : rmutation_works (ns_mut c) (d_type (ns_d c));
  nsw_cross : d_type (ns_d c) = OrderedBound \/ ns_rate c <= 0;
  nsw_mu : (0 < ns_mu c)%nat;
  nsw_k : (ns_k c + 2 < ns_lambda c)%nat;
  nsw_type : type_ok (ns_type c) }.
Inductive working_discovery (L : learner) (rngof : stream -> rng) : discovery L -> given_constraint -> acceptance -> origin -> Prop :=
| Works_es c k : es_works c -> working_discovery L rngof (es_discovery L rngof c k) k (d_accept (es_d c)) (d_origin (es_d c))
| Works_rs c k : rs_works c -> working_discovery L rngof (rs_discovery L rngof c k) k (d_accept (rs_d c)) (d_origin (rs_d c))
| Works_ns c k : ns_works c -> (forall m e, exists q, rfitness L m e = Fin q) -> working_discovery L rngof (ns_discovery L rngof c k) k (d_accept (ns_d c)) (d_origin (ns_d c)).
(* the origin asks the elitist for predictions *)
Definition asks (o : origin) : Prop := match o with SquaredError _ => True | _ => False end.

(* the filter of the mixing model always finds enough rules *)
Definition mixing_works (mx : mixing) : Prop := match mfilter mx with RouletteWheel _ => False | _ => True end.
(* roulette needs fitnesses that are not negative *)
Definition selection_works (f : nat -> Q -> nat -> nat -> num) (s : selection) : Prop :=
  match s with
  | SelTournament k => (0 < k)%nat
  | SelRoulette => forall m e k n, exists q, f m e k n = Fin q /\ 0 <= q
  | _ => True
  end.
(* the movements of a swarm that never divide by a drawn number *)
Definition smooth (m : movement) : Prop := match m with MBinaryQuantum _ _ => False | _ => True end.
(* the dimension flips find as many positions as they ask for *)
Definition food_fits (f : food) : Prop := match f with FDimensionFlips rate => 0 <= rate <= 1 | _ => True end.
(* the settings cc decide whether the population of the step before is kept *)
Inductive working_composer (f : nat -> Q -> nat -> nat -> num) (cc : ccfg) : forall K (O : optimizer K), ostate O -> Prop :=
| Works_ga c : (0 < g_size c)%nat -> selection_works f (g_sel c) -> working_composer f cc plain (ga c) tt
| Works_random n_iter size : (0 < n_iter)%nat -> (0 < size)%nat -> working_composer f cc plain (rs n_iter size) tt
| Works_saga1 c r : Nat.even (s1_size c) = true -> (0 < s1_size c)%nat -> selection_works f (s1_sel c) -> ~ s1_cmult c == 0 -> ~ s1_mmult c == 0 -> working_composer f cc plain (saga1 c) r
| Works_saga2 t c r : Nat.even (s2_size c) = true -> (0 < s2_size c)%nat -> selection_works f (s2_sel c) -> (n_elitists (s2_size c) (s2_ratio c) <= s2_size c)%nat ->
    (n_elitists (s2_size c) (s2_ratio c) <= 1)%nat \/ cwarm cc = false -> working_composer f cc plain (saga2 t c) r
| Works_saga3 c : Nat.even (s3_size c) = true -> (0 < s3_size c)%nat -> selection_works f (s3_sel c) -> working_composer f cc saga_sol (saga3 c) tt
| Works_aco_binary A b c : (0 < a_size c)%nat -> working_composer f cc plain (aco (Binary A b) c) None
| Works_aco_complete A b partial c : (0 < a_size c)%nat -> working_composer f cc plain (aco (Complete A b partial) c) None
| Works_bees M c : (0 < be_size c)%nat -> food_fits (be_food c) -> (forall m e k n, exists q, f m e k n = Fin q /\ 0 < q) -> working_composer f cc plain (bees M c) tt
| Works_swarm M c : (0 < ps_iter c)%nat -> (0 < ps_size c)%nat -> smooth (ps_move c) -> working_composer f cc plain (swarm M c) tt
| Works_wolves M c : (0 < w_iter c)%nat -> (0 < w_size c)%nat -> (0 < w_leaders c)%nat -> (w_pos c = WCrossover -> (w_leaders c <= 32)%nat) -> working_composer f cc plain (wolves M c) tt.
Arguments working_composer f cc {K} O i.
(* a rule of the pool: fitted to the training data, some of which it matches *)
Definition useful {L} (X : matrix) (y : targets) (r : rule L) : Prop := fitted_on X y r /\ matches_some X r.
Definition one_bit_each {L} (el : option (list bool)) (pool : list (rule L)) : Prop := match el with Some bits => length bits = length pool | None => True end.
(* loggers: those that never raise, those of the library, and pairs of them *)
Inductive working_logger (L : learner) : logger L -> Prop :=
| Logs_quiet G : quiet G -> working_logger L G
| Logs_default g : working_logger L (default_logger L g)
| Logs_stdout g : working_logger L (stdout_logger L g)
| Logs_both G H : working_logger L G -> working_logger L H -> working_logger L (both G H).
