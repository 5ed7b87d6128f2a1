(* C45: the wrapper sets exactly the named parameters. *)
From Coq Require Import String Permutation Sorted.
From Verif Require Import PyNum PyList PyMon M_Objects M_Components S_Objects L_Wrapper L_ObjectsEx.
Open Scope string_scope.

(* a keyword names the path of its parts; its depth is the number of separators *)
Theorem C45_key_names_path : forall k a, ends_in_underscore k = false -> path_of (k ++ "__" ++ a) = (path_of k ++ path_of a)%list /\ count_us (k ++ "__" ++ a) = S (count_us k + count_us a).
Proof. exact key_names_path. Qed.
Print Assumptions C45_key_names_path.
Example C45_key_satisfiable : path_of "solution_composition__selection__k" = ["solution_composition"; "selection"; "k"] /\ ends_in_underscore "solution_composition" = false.
Proof. split; reflexivity. Qed.
(* the named attribute gets the value and nothing else changes *)
Theorem C45_named_parameter_set : forall classes builtins root key v h p n, key <> "print_config" -> target classes builtins h root key p n -> n <> "matching_type" ->
  exists h', wrap_one classes builtins root key v h = (Ok false, h') /\ stored h' p n = Some v /\ changed_only (fun q m => q = p /\ m = n) h h'.
Proof. exact named_parameter_set. Qed.
Print Assumptions C45_named_parameter_set.
Example C45_named_satisfiable : target shipped plain_values config (Ref 0) "solution_composition__selection__k" 17 "k".
Proof. exact config_target. Qed.
(* setting the representation of a component also chooses its method *)
Theorem C45_representation_set : forall classes builtins root key v h p r h', key <> "print_config" -> target classes builtins h root key p "matching_type" ->
  wrap_one classes builtins root key v h = (r, h') ->
  stored h' p "matching_type" = Some v /\ changed_only (fun q m => q = p /\ In m ["matching_type"; "execute"; "generate_matching_function"]) h h'.
Proof. exact type_set. Qed.
Print Assumptions C45_representation_set.
Example C45_representation_satisfiable : target shipped plain_values config (Ref 0) "rule_discovery__mutation__matching_type" 3 "matching_type" /\
  exists h', wrap_one shipped plain_values (Ref 0) "rule_discovery__mutation__matching_type" (Ref 23) config = (Ok false, h').
Proof. split; [exact config_target3|]. eexists. vm_compute. reflexivity. Qed.
(* a name that does not exist is reported and nothing changes *)
Theorem C45_unknown_reported : forall classes builtins root key v h steps n o e, key <> "print_config" -> path_of key = (steps ++ [n])%list ->
  leads classes builtins h root steps o -> getattr classes builtins h o n = Raise e -> wrap_one classes builtins root key v h = (Ok true, h).
Proof. exact unknown_reported. Qed.
Print Assumptions C45_unknown_reported.
Example C45_unknown_satisfiable : path_of "rule_discovery__mu" = (["rule_discovery"] ++ ["mu"])%list /\ leads shipped plain_values config (Ref 0) ["rule_discovery"] (Ref 1) /\
  getattr shipped plain_values config (Ref 1) "mu" = Raise AttributeError.
Proof. split; [reflexivity|]. split; [apply leads_of; vm_compute; reflexivity|]. vm_compute. reflexivity. Qed.
(* keywords that do not meet on the way are all set, whatever their order, and nothing else is *)
Theorem C45_exactly_the_named : forall classes builtins root kwargs h, NoDup (map fst kwargs) ->
  (forall key v, In (key, v) kwargs -> key <> "print_config" /\ exists p n, target classes builtins h root key p n /\ n <> "matching_type") ->
  (forall key1 v1 key2 v2 p n, In (key1, v1) kwargs -> In (key2, v2) kwargs -> key1 <> key2 -> target classes builtins h root key1 p n -> ~ touches classes builtins h root p n key2) ->
  exists h', wrapper classes builtins root kwargs h = (Ok (root, []), h') /\
    (forall key v p n, In (key, v) kwargs -> target classes builtins h root key p n -> stored h' p n = Some v) /\
    changed_only (fun p n => exists key v, In (key, v) kwargs /\ target classes builtins h root key p n) h h'.
Proof. exact independent_keywords. Qed.
Print Assumptions C45_exactly_the_named.
Example C45_exactly_satisfiable : let kwargs := [("solution_composition__selection__k", int 3); ("rule_discovery__lmbda", int 7)] in
  NoDup (map fst kwargs) /\
  (forall key v, In (key, v) kwargs -> key <> "print_config" /\ exists p n, target shipped plain_values config (Ref 0) key p n /\ n <> "matching_type") /\
  (forall key1 v1 key2 v2 p n, In (key1, v1) kwargs -> In (key2, v2) kwargs -> key1 <> key2 -> target shipped plain_values config (Ref 0) key1 p n -> ~ touches shipped plain_values config (Ref 0) p n key2).
Proof. exact two_keywords. Qed.
(* keywords are treated by depth: an object is set before the parameters in it *)
Theorem C45_outer_first : forall classes builtins root kwargs h,
  exists order, Permutation kwargs order /\ StronglySorted (fun a b => (count_us (fst a) <= count_us (fst b))%nat) order /\
  wrapper classes builtins root kwargs h =
    match mmap (fun kv => let* w := wrap_one classes builtins root (fst kv) (snd kv) in ret (fst kv, w)) order h with
    | (Ok l, h') => (Ok (root, map fst (filter snd l)), h') | (Raise e, h') => (Raise e, h') end.
Proof. exact outer_first. Qed.
Print Assumptions C45_outer_first.
(* as the docstring says: an object given together with settings for it ends up in place with these settings, in whatever order they were written *)
Theorem C45_object_and_settings : forall classes builtins root k c settings kwargs h steps p n w,
  ends_in_underscore k = false -> k <> "print_config" -> path_of k = (steps ++ [n])%list -> leads classes builtins h root steps (Ref p) -> getattr classes builtins h (Ref p) n = Ok w -> n <> "matching_type" ->
  (forall a b, steps = (a ++ b)%list -> ~ leads classes builtins h root a (Ref c)) -> (forall a b, steps = (a ++ n :: b)%list -> ~ leads classes builtins h root a (Ref p)) ->
  (forall a v, In (a, v) settings -> path_of a = [a] /\ count_us a = 0%nat /\ (exists u, getattr classes builtins h (Ref c) a = Ok u) /\ a <> "matching_type") -> NoDup (map fst settings) ->
  Permutation ((k, Ref c) :: map (fun av => (k ++ "__" ++ fst av, snd av)) settings) kwargs ->
  exists h', wrapper classes builtins root kwargs h = (Ok (root, []), h') /\ stored h' p n = Some (Ref c) /\ (forall a v, In (a, v) settings -> stored h' c a = Some v) /\
    changed_only (fun q m => (q = p /\ m = n) \/ (q = c /\ exists v, In (m, v) settings)) h h'.
Proof. exact object_and_settings. Qed.
Print Assumptions C45_object_and_settings.
Example C45_object_satisfiable : exists h',
  wrapper shipped plain_values (Ref 0) [("solution_composition__crossover__n", int 5); ("solution_composition__crossover", Ref 25)] config = (Ok (Ref 0, []), h') /\
  class_of config (Ref 25) = "NPoint" /\ stored h' 10 "crossover" = Some (Ref 25) /\ stored h' 25 "n" = Some (int 5).
Proof. eexists. split; [vm_compute; reflexivity|]. repeat split; vm_compute; reflexivity. Qed.
(* always: the estimator given is the one returned; no object appears or disappears; only attributes named by some keyword that was not reported change *)
Theorem C45_nothing_else : forall classes builtins root kwargs h r h', NoDup (map fst kwargs) -> wrapper classes builtins root kwargs h = (r, h') ->
  (forall x warned, r = Ok (x, warned) -> x = root /\ incl warned (map fst kwargs)) /\
  changed_only (fun p m => exists key v, In (key, v) kwargs /\ key <> "print_config" /\ (forall x warned, r = Ok (x, warned) -> ~ In key warned) /\
     (last (path_of key) "" = m \/ (last (path_of key) "" = "matching_type" /\ In m ["execute"; "generate_matching_function"]))) h h'.
Proof. exact nothing_else. Qed.
Print Assumptions C45_nothing_else.
Example C45_nothing_satisfiable : exists h', wrapper shipped plain_values (Ref 0) [("rule_discovery__mu", int 3); ("rule_discovery__lmbda", int 7); ("print_config", none)] config = (Ok (Ref 0, ["rule_discovery__mu"]), h') /\
  stored h' 1 "lmbda" = Some (int 7).
Proof. eexists. split; vm_compute; reflexivity. Qed.

(* ----- where it goes wrong ----- *)
(* a step that does not exist is skipped: the keyword sets an attribute of another object, and nothing is reported *)
Theorem C45_skipped_segment_refuted : exists key v h', wrapper shipped plain_values (Ref 0) [(key, v)] config = (Ok (Ref 0, []), h') /\ path_of key = ["foo"; "n_iter"] /\
  getattr shipped plain_values config (Ref 0) "foo" = Raise AttributeError /\ stored config 0 "n_iter" = Some (int 32) /\ stored h' 0 "n_iter" = Some v /\ v <> int 32.
Proof. exact skipped_segment. Qed.
Print Assumptions C45_skipped_segment_refuted.
(* names that are attributes but no parameters are accepted: a method can be overwritten *)
Theorem C45_method_refuted : exists h', wrapper shipped plain_values (Ref 0) [("fit", int 3)] config = (Ok (Ref 0, []), h') /\
  (exists ns, param_names shipped config (Ref 0) = Some ns /\ ~ In "fit" ns) /\ getattr shipped plain_values config (Ref 0) "fit" = Ok (Prim (AMember "fit")) /\ getattr shipped plain_values h' (Ref 0) "fit" = Ok (int 3).
Proof. exact method_overwritten. Qed.
Print Assumptions C45_method_refuted.
(* calls without an estimator share one: a later call returns the settings of an earlier one *)
Theorem C45_calls_independent_refuted : exists v h1 h2, call_wrapper shipped plain_values (Ref 0) None [("n_iter", v)] config = (Ok (Ref 0, []), h1) /\
  call_wrapper shipped plain_values (Ref 0) None [] h1 = (Ok (Ref 0, []), h2) /\ stored config 0 "n_iter" = Some (int 32) /\ v <> int 32 /\ stored h2 0 "n_iter" = Some v.
Proof. exact calls_share. Qed.
Print Assumptions C45_calls_independent_refuted.
(* objects in default arguments are shared between components: setting a parameter of one estimator changes another *)
Theorem C45_shared_defaults_refuted : exists key v h', wrapper shipped plain_values (Ref 0) [(key, v)] config = (Ok (Ref 0, []), h') /\ path_of key = ["rule_discovery"; "mutation"; "sigma"] /\
  leads shipped plain_values config (Ref 26) ["rule_discovery"; "mutation"; "sigma"] (flt (61 # 50)) /\ leads shipped plain_values h' (Ref 26) ["rule_discovery"; "mutation"; "sigma"] v /\ v <> flt (61 # 50).
Proof. exact defaults_shared. Qed.
Print Assumptions C45_shared_defaults_refuted.
