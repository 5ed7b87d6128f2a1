(* Preparing the components in fit: C48 the configuration stays as it was, C57 the configured representation is used everywhere. *)
From Coq Require Import String.
From Verif Require Import PyNum PyList PyMon M_Objects M_Components S_Objects L_Objects L_Clone L_Prepared L_ObjectsEx.
Open Scope string_scope.

(* ===== C48 ===== *)
(* whether the preparation succeeds or raises: every object that existed is as it was, and the estimator got at most its four results *)
Theorem C48_configuration_untouched : forall classes builtins s f drd dsc dmt dlog data ml h r h',
  (forall v, getattr classes builtins h (Ref s) "n_jobs" = Ok v -> exists a, v = Prim a) -> nth_error h s <> None ->
  prepare_components classes builtins f (Ref s) drd dsc dmt dlog data ml h = (r, h') ->
  (forall p, (p < length h)%nat -> p <> s -> nth_error h' p = nth_error h p) /\
  (exists o o', nth_error h s = Some o /\ nth_error h' s = Some o' /\ cls o' = cls o) /\
  forall m, ~ In m ["rule_discovery_"; "solution_composition_"; "matching_type_"; "logger_"] -> stored h' s m = stored h s m.
Proof. exact configuration_untouched. Qed.
Print Assumptions C48_configuration_untouched.
Example C48_untouched_satisfiable :
  (forall v, getattr shipped plain_values config (Ref 0) "n_jobs" = Ok v -> exists a, v = Prim a) /\ nth_error config 0 <> None /\
  prepare_components shipped plain_values 8 (Ref 0) none none (Ref 23) (Ref 24) training 128 config = (Ok tt, prepared_heap) /\ (length config < length prepared_heap)%nat.
Proof. split; [exact config_jobs|]. split; [discriminate|]. split; [exact prepared_heap_ok|]. vm_compute. repeat constructor. Qed.
(* what fit works on are new objects of the same classes with the same settings: bounds that were given are used as given *)
Theorem C48_works_on_copies : forall classes builtins, usual_classes classes -> forall s f drd dsc dmt dlog data ml h u h',
  sound h -> valid h drd -> valid h dsc -> valid h dmt -> valid h dlog ->
  (forall v, getattr classes builtins h (Ref s) "n_jobs" = Ok v -> exists a, v = Prim a) ->
  (forall rd, chosen classes builtins h s "rule_discovery" drd rd -> no_own_representation classes builtins h rd) ->
  prepare_components classes builtins f (Ref s) drd dsc dmt dlog data ml h = (Ok u, h') ->
  (exists v c, chosen classes builtins h s "rule_discovery" drd v /\ stored h' s "rule_discovery_" = Some c /\ works_on_copy classes builtins h v h' c) /\
  (exists v c, chosen classes builtins h s "solution_composition" dsc v /\ stored h' s "solution_composition_" = Some c /\ works_on_copy classes builtins h v h' c) /\
  (exists v c, chosen classes builtins h s "matching_type" dmt v /\ stored h' s "matching_type_" = Some c /\ works_on_copy classes builtins h v h' c) /\
  (exists v c, chosen classes builtins h s "logger" dlog v /\ stored h' s "logger_" = Some c /\ works_on_copy classes builtins h v h' c).
Proof. exact works_on_copies. Qed.
Print Assumptions C48_works_on_copies.
Example C48_copies_satisfiable : usual_classes shipped /\ sound config /\ valid config (Ref 23) /\ valid config (Ref 24) /\
  (forall rd, chosen shipped plain_values config 0 "rule_discovery" none rd -> no_own_representation shipped plain_values config rd) /\
  prepare_components shipped plain_values 8 (Ref 0) none none (Ref 23) (Ref 24) training 128 config = (Ok tt, prepared_heap).
Proof. split; [exact table_usual|]. split; [exact config_sound|]. split; [vm_compute; repeat constructor|]. split; [vm_compute; repeat constructor|]. split; [exact config_own|exact prepared_heap_ok]. Qed.
Example C48_given_bounds : exists h', prepare_components shipped plain_values 8 (Ref 0) none none (Ref 23) (Ref 24) training 128 with_bounds = (Ok tt, h') /\
  configured shipped plain_values with_bounds (Ref 1) ["constraint"; "clip"; "bounds"; "data"] (Prim (AData [[-(1); 1]])) /\
  exists rd, stored h' 0 "rule_discovery_" = Some rd /\ configured shipped plain_values h' rd ["constraint"; "clip"; "bounds"; "data"] (Prim (AData [[-(1); 1]])) /\
    configured shipped plain_values h' rd ["init"; "bounds"; "data"] (Prim (AData training)).
Proof. exact with_bounds_ok. Qed.
(* afterwards no bounds are missing, and those that were missing are those of the data *)
Theorem C48_missing_bounds_estimated : forall classes builtins, usual_classes classes -> forall s f drd dsc dmt dlog data ml h u h',
  sound h -> valid h drd -> valid h dsc -> valid h dmt -> valid h dlog ->
  (forall v, getattr classes builtins h (Ref s) "n_jobs" = Ok v -> exists a, v = Prim a) ->
  (forall rd, chosen classes builtins h s "rule_discovery" drd rd -> no_own_representation classes builtins h rd) ->
  prepare_components classes builtins f (Ref s) drd dsc dmt dlog data ml h = (Ok u, h') ->
  forall rd, stored h' s "rule_discovery_" = Some rd ->
  (forall key v, parameter classes builtins h' rd key v -> ends_with "bounds" (last key "") = true ->
     (forall n, In n (removelast key) -> contains "matching_type" n = false) -> v <> Prim ANone) /\
  (forall rd0 key, chosen classes builtins h s "rule_discovery" drd rd0 -> parameter classes builtins h rd0 key (Prim ANone) -> ends_with "bounds" (last key "") = true ->
     (forall n, In n key -> ~ In n assigned) ->
     exists b, parameter classes builtins h' rd key (Ref b) /\ class_of h' (Ref b) = "ndarray" /\ stored h' b "data" = Some (Prim (AData data))).
Proof. exact bounds_known. Qed.
Print Assumptions C48_missing_bounds_estimated.
Example C48_bounds_satisfiable : parameter shipped plain_values config (Ref 1) ["init"; "bounds"] none /\ ends_with "bounds" "bounds" = true /\ forall n, In n ["init"; "bounds"] -> ~ In n assigned.
Proof. exact config_missing. Qed.
(* the number of jobs and the length of genomes reach the components *)
Theorem C48_values_handed_on : forall classes builtins, usual_classes classes -> forall s f drd dsc dmt dlog data ml h u h',
  sound h -> valid h drd -> valid h dsc -> valid h dmt -> valid h dlog ->
  (forall v, getattr classes builtins h (Ref s) "n_jobs" = Ok v -> exists a, v = Prim a) ->
  (forall rd, chosen classes builtins h s "rule_discovery" drd rd -> no_own_representation classes builtins h rd) ->
  prepare_components classes builtins f (Ref s) drd dsc dmt dlog data ml h = (Ok u, h') ->
  forall rd sc, stored h' s "rule_discovery_" = Some rd -> stored h' s "solution_composition_" = Some sc ->
  (forall v, getattr classes builtins h (Ref s) "n_jobs" = Ok v -> getattr classes builtins h' rd "n_jobs" = Ok v /\ getattr classes builtins h' sc "n_jobs" = Ok v) /\
  (exists i fi, getattr classes builtins h' sc "init" = Ok i /\ getattr classes builtins h' i "fitness" = Ok fi /\ getattr classes builtins h' fi "max_genome_length_" = Ok (Prim (AInt ml))).
Proof. exact handed_on. Qed.
Print Assumptions C48_values_handed_on.
Example C48_handed_on_satisfiable : (exists rd, stored prepared_heap 0 "rule_discovery_" = Some rd) /\ (exists sc, stored prepared_heap 0 "solution_composition_" = Some sc) /\
  getattr shipped plain_values config (Ref 0) "n_jobs" = Ok (int 1).
Proof. split; [eexists; vm_compute; reflexivity|]. split; [eexists; vm_compute; reflexivity|]. vm_compute. reflexivity. Qed.

(* ===== C57 ===== *)
(* if the preparation succeeds, every component of the rule discovery holds the configured representation and uses the method for it *)
Theorem C57_representation_everywhere_partial : forall classes builtins, usual_classes classes -> forall s f drd dsc dmt dlog data ml h u h',
  sound h -> valid h drd -> valid h dsc -> valid h dmt -> valid h dlog ->
  (forall v, getattr classes builtins h (Ref s) "n_jobs" = Ok v -> exists a, v = Prim a) ->
  (forall rd, chosen classes builtins h s "rule_discovery" drd rd -> no_own_representation classes builtins h rd) ->
  prepare_components classes builtins f (Ref s) drd dsc dmt dlog data ml h = (Ok u, h') ->
  forall rd mt, stored h' s "rule_discovery_" = Some rd -> stored h' s "matching_type_" = Some mt ->
  forall key w, parameter classes builtins h' rd key w -> last key "" = "matching_type" -> (forall n, In n (removelast key) -> contains "matching_type" n = false) ->
    w = mt /\ exists x, leads classes builtins h' rd (removelast key) (Ref x) /\
      forall hn hm, uses (ckind (classes (class_of h' (Ref x)))) (class_of h' mt) hn hm -> stored h' x hn = Some (Prim (AMember hm)).
Proof. exact representation_everywhere. Qed.
Print Assumptions C57_representation_everywhere_partial.
Example C57_everywhere_satisfiable : exists rd mt x, stored prepared_heap 0 "rule_discovery_" = Some rd /\ stored prepared_heap 0 "matching_type_" = Some mt /\
  parameter shipped plain_values prepared_heap rd ["mutation"; "matching_type"] mt /\ leads shipped plain_values prepared_heap rd ["mutation"] (Ref x) /\
  uses (ckind (shipped (class_of prepared_heap (Ref x)))) (class_of prepared_heap mt) "execute" "ordered_bound" /\ stored prepared_heap x "execute" = Some (Prim (AMember "ordered_bound")).
Proof. exact prepared_mutation. Qed.
(* the default mutation of ES1xLambda has one sigma for all; with representations of two rows the preparation of the defaults fails *)
Theorem C57_defaults_refuted : exists o, nth_error (with_type "CenterSpread" config) 0 = Some o /\ field (fields o) "rule_discovery" = Some (Ref 1) /\
  nth_error (with_type "CenterSpread" config) 3 = nth_error config 3 /\
  outcome (with_type "CenterSpread" config) = Raise AssertionError /\ outcome (with_type "MinPercentage" config) = Raise AssertionError /\
  outcome (with_type "CenterSpread" (with_sigma config)) = Ok tt /\ outcome (with_type "MinPercentage" (with_sigma config)) = Ok tt.
Proof. exact defaults_fail. Qed.
Print Assumptions C57_defaults_refuted.
(* novelty search cannot be prepared for these representations at all: its crossover has no sigma to check *)
Theorem C57_novelty_search_refuted : outcome novelty = Ok tt /\
  forall setting c, In c ["CenterSpread"; "MinPercentage"] -> In setting [novelty; with_sigma novelty] -> exists e, outcome (with_type c setting) = Raise e.
Proof. exact crossover_fails. Qed.
Print Assumptions C57_novelty_search_refuted.
