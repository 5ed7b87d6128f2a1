(* Configurations for the examples. *)
From Coq Require Import String.
From Verif Require Import PyNum PyList PyMon M_Objects M_Components S_Objects L_Objects L_Clone L_Params L_Representation L_Wrapper L_Prepare L_Prepared.
Local Open Scope string_scope.

Definition none : val := Prim ANone.
Definition int (z : Z) : val := Prim (AInt z).
Definition flt (q : Q) : val := Prim (AFloat (Fin q)).
(* estimator at 0; ES1xLambda at 1; GeneticAlgorithm at 12 *)
Definition es_fields (init mut : val) : list (string * val) :=
  [("random_state", none); ("n_jobs", int 1); ("n_iter", int 1000); ("origin_generation", Ref 4); ("init", init); ("acceptance", Ref 6); ("constraint", Ref 7); ("lmbda", int 20); ("delay", int 146);
   ("operator", Prim (AStr "&")); ("mutation", mut); ("selection", Ref 5)].
Definition config : heap := [
  (*0*) mkObject "SupRB" [("n_iter", int 32); ("n_initial_rules", int 0); ("n_rules", int 4); ("matching_type", none); ("rule_discovery", Ref 1); ("solution_composition", Ref 10); ("random_state", none); ("verbose", int 1);
          ("logger", none); ("n_jobs", int 1); ("early_stopping_patience", int (-1)); ("early_stopping_delta", int 0)];
  (*1*) mkObject "ES1xLambda" (es_fields (Ref 2) (Ref 3));
  (*2*) mkObject "MeanInit" [("bounds", none); ("model", Ref 18); ("fitness", Ref 19); ("matching_type", none)];
  (*3*) mkObject "HalfnormIncrease" [("matching_type", none); ("sigma", flt (61 # 50))];
  (*4*) mkObject "Matching" [("use_elitist", Prim (ABool true))];
  (*5*) mkObject "Fittest" [];
  (*6*) mkObject "Variance" [("beta", int 1)];
  (*7*) mkObject "CombinedConstraint" [("min_range", Ref 8); ("clip", Ref 9)];
  (*8*) mkObject "MinRange" [("min_range", flt (1 # 1000000))];
  (*9*) mkObject "Clip" [("bounds", none)];
  (*10*) mkObject "GeneticAlgorithm" [("random_state", none); ("n_jobs", int 1); ("n_iter", int 32); ("init", Ref 11); ("archive", Ref 14); ("warm_start", Prim (ABool true)); ("population_size", int 32);
           ("mutation", Ref 15); ("crossover", Ref 16); ("selection", Ref 17); ("elitist_ratio", flt (17 # 100))];
  (*11*) mkObject "RandomInit" [("mixing", Ref 12); ("fitness", Ref 13); ("p", flt (1 # 2))];
  (*12*) mkObject "ErrorExperienceHeuristic" [("input_size", none); ("filter_subpopulation", Ref 21); ("experience_calculation", Ref 22); ("experience_weight", int 1)];
  (*13*) mkObject "ComplexityWu" [("alpha", flt (3 # 10))];
  (*14*) mkObject "Elitist" [];
  (*15*) mkObject "BitFlips" [("mutation_rate", flt (1 # 1000))];
  (*16*) mkObject "NPoint" [("crossover_rate", flt (9 # 10)); ("n", int 3)];
  (*17*) mkObject "Tournament" [("k", int 5)];
  (*18*) mkObject "Ridge" [("alpha", flt (1 # 100))];
  (*19*) mkObject "VolumeWu" [("alpha", flt (1 # 20))];
  (*20*) mkObject "ndarray" [("data", Prim (AData []))];
  (*21*) mkObject "FilterSubpopulation" [("rule_amount", int 6)];
  (*22*) mkObject "ExperienceCalculation" [("lower_bound", Prim (AFloat NInf)); ("upper_bound", Prim (AFloat PInf))];
  (*23*) mkObject "OrderedBound" [("bounds", Ref 20)];
  (*24*) mkObject "DefaultLogger" [];
  (* not part of the configuration yet *)
  (*25*) mkObject "NPoint" [("crossover_rate", flt (9 # 10)); ("n", int 2)];
  (*26*) mkObject "SupRB" [("n_iter", int 32); ("n_initial_rules", int 0); ("n_rules", int 4); ("matching_type", none); ("rule_discovery", Ref 27); ("solution_composition", none); ("random_state", none); ("verbose", int 1);
          ("logger", none); ("n_jobs", int 1); ("early_stopping_patience", int (-1)); ("early_stopping_delta", int 0)];
  (*27: a second ES1xLambda() shares the objects of the default arguments with the first *)
        mkObject "ES1xLambda" (es_fields (Ref 2) (Ref 3)) ].

Definition training : list (list Q) := [[0; 3]].
Definition prepared_ok (h : heap) : Prop := exists h', prepare_components shipped plain_values 8 (Ref 0) none none (Ref 23) (Ref 24) training 128 h = (Ok tt, h').
Lemma config_prepared : prepared_ok config.
Proof. eexists. vm_compute. reflexivity. Qed.

(* deciding the hypotheses *)
Definition sound_b (h : heap) : bool := forallb (fun o => forallb (fun nv => match snd nv with Ref q => Nat.ltb q (length h) | Prim _ => true end) (fields o)) h.
Lemma sound_ok h : sound_b h = true -> sound h.
Proof.
  intros H p o n q E EF. unfold sound_b in H. rewrite forallb_forall in H. specialize (H o (nth_error_In _ _ E)). rewrite forallb_forall in H. apply field_In in EF as (m & HI & _). specialize (H _ HI). cbn in H. apply Nat.ltb_lt. exact H.
Qed.
Lemma parameter_listed h v key w ps : get_params shipped plain_values 8 h v = Ok ps -> parameter shipped plain_values h v key w -> In (key, w) ps.
Proof. intros HG HP. destruct (parameter_loc _ _ _ _ _ _ HP) as (x & m & HL & HA). exact (loc_get_params _ _ _ _ _ _ HG _ _ _ _ HL HA). Qed.
Definition own_b (key : list string) : bool :=
  forallb (fun n => negb (contains "matching_type" n)) (removelast key) && (negb (contains "matching_type" (last key "")) || String.eqb (last key "") "matching_type").
Lemma own_ok h v ps : get_params shipped plain_values 8 h v = Ok ps -> forallb (fun kv => own_b (fst kv)) ps = true -> no_own_representation shipped plain_values h v.
Proof.
  intros HG HB key w HP. pose proof (parameter_listed _ _ _ _ _ HG HP) as HI. rewrite forallb_forall in HB. specialize (HB _ HI). cbn [fst] in HB. unfold own_b in HB. apply andb_prop in HB as [H1 H2]. split.
  - intros n HN. rewrite forallb_forall in H1. specialize (H1 n HN). apply Bool.negb_true_iff in H1. exact H1.
  - intros HC. rewrite HC in H2. cbn in H2. apply String.eqb_eq. exact H2.
Qed.
Lemma chosen_first h s n d v : chosen shipped plain_values h s n d v -> getattr shipped plain_values h (Ref s) n = Ok v \/ (getattr shipped plain_values h (Ref s) n = Ok (Prim ANone) /\ v = d).
Proof. intros [v0 H _|H]; auto. Qed.
Lemma config_own rd0 : chosen shipped plain_values config 0 "rule_discovery" none rd0 -> no_own_representation shipped plain_values config rd0.
Proof. intros HC. apply chosen_first in HC as [H|[H _]]; vm_compute in H; [injection H as <-|discriminate]. eapply own_ok; [vm_compute; reflexivity|vm_compute; reflexivity]. Qed.
Lemma config_sound : sound config. Proof. apply sound_ok. vm_compute. reflexivity. Qed.
Lemma table_usual : usual_classes shipped.
Proof.
  split; [reflexivity|]. intros c ns HN n HI. unfold shipped in HN. destruct (find (fun nc => String.eqb (fst nc) c) table) as [nc|] eqn:E; [|discriminate]. apply find_some in E as [HIn _].
  assert (HB : forallb (fun nc => match names (snd nc) with Some ns => forallb (fun n => negb (existsb (String.eqb n) ["execute"; "generate_matching_function"; "max_genome_length_"])) ns | None => true end) table = true) by (vm_compute; reflexivity).
  rewrite forallb_forall in HB. specialize (HB nc HIn). rewrite HN in HB. rewrite forallb_forall in HB. intros HX. specialize (HB n HX). apply Bool.negb_true_iff in HB.
  assert (HY : existsb (String.eqb n) ["execute"; "generate_matching_function"; "max_genome_length_"] = true) by (apply existsb_exists; exists n; split; [exact HI|apply String.eqb_refl]). congruence.
Qed.
Lemma config_jobs v : getattr shipped plain_values config (Ref 0) "n_jobs" = Ok v -> exists a, v = Prim a.
Proof. intros H. vm_compute in H. injection H as <-. eexists. reflexivity. Qed.

(* the same with another representation *)
Definition with_type (c : string) (h : heap) : heap := (write h 0 "matching_type" (Ref (length h)) ++ [mkObject c [("bounds", Ref 20)]])%list.
Definition with_sigma (h : heap) : heap := (write h 3 "sigma" (Ref (length h)) ++ [mkObject "ndarray" [("data", Prim (AData [[1]; [1]]))]])%list.
(* NoveltySearch in place of ES1xLambda *)
Definition novelty : heap := (write config 0 "rule_discovery" (Ref 28) ++ [
  mkObject "NoveltySearch" [("random_state", none); ("n_jobs", int 1); ("n_iter", int 10); ("origin_generation", Ref 4); ("init", Ref 2); ("acceptance", Ref 6); ("constraint", Ref 7); ("mu", int 16); ("lmbda", int 160); ("roh", int 15);
    ("crossover", Ref 29); ("mutation", Ref 3); ("selection", Ref 5); ("n_elitists", int 2); ("novelty_calculation", Ref 30); ("use_population_for_archive", Prim (ABool true))];
  mkObject "UniformCrossover" [("matching_type", none); ("crossover_rate", flt (1 # 2))];
  mkObject "NoveltyCalculation" [("novelty_search_type", Ref 31); ("archive", Ref 32); ("k_neighbor", int 15)];
  mkObject "NoveltySearchType" []; mkObject "ArchiveNovel" []])%list.
Definition outcome (h : heap) : res unit := fst (prepare_components shipped plain_values 8 (Ref 0) none none (Ref 23) (Ref 24) training 128 h).
Lemma defaults_fail : exists o, nth_error (with_type "CenterSpread" config) 0 = Some o /\ field (fields o) "rule_discovery" = Some (Ref 1) /\ nth_error (with_type "CenterSpread" config) 3 = nth_error config 3 /\
  outcome (with_type "CenterSpread" config) = Raise AssertionError /\ outcome (with_type "MinPercentage" config) = Raise AssertionError /\
  outcome (with_type "CenterSpread" (with_sigma config)) = Ok tt /\ outcome (with_type "MinPercentage" (with_sigma config)) = Ok tt.
Proof. eexists. repeat split; vm_compute; reflexivity. Qed.
Lemma crossover_fails : outcome novelty = Ok tt /\ forall sigma c, In c ["CenterSpread"; "MinPercentage"] -> In sigma [novelty; with_sigma novelty] -> exists e, outcome (with_type c sigma) = Raise e.
Proof. split; [vm_compute; reflexivity|]. intros sigma c HC HS. cbn in HC, HS. decompose [or] HC; decompose [or] HS; try contradiction; subst; eexists; vm_compute; reflexivity. Qed.
Definition prepared_heap : heap := Eval vm_compute in snd (prepare_components shipped plain_values 8 (Ref 0) none none (Ref 23) (Ref 24) training 128 config).
Lemma prepared_heap_ok : prepare_components shipped plain_values 8 (Ref 0) none none (Ref 23) (Ref 24) training 128 config = (Ok tt, prepared_heap).
Proof. vm_compute. reflexivity. Qed.
(* the array of bounds as the user gave it *)
Definition with_bounds : heap := (write config 9 "bounds" (Ref 28) ++ [mkObject "ndarray" [("data", Prim (AData [[-(1); 1]]))]])%list.
Lemma with_bounds_ok : exists h', prepare_components shipped plain_values 8 (Ref 0) none none (Ref 23) (Ref 24) training 128 with_bounds = (Ok tt, h') /\
  configured shipped plain_values with_bounds (Ref 1) ["constraint"; "clip"; "bounds"; "data"] (Prim (AData [[-(1); 1]])) /\
  exists rd, stored h' 0 "rule_discovery_" = Some rd /\ configured shipped plain_values h' rd ["constraint"; "clip"; "bounds"; "data"] (Prim (AData [[-(1); 1]])) /\
    configured shipped plain_values h' rd ["init"; "bounds"; "data"] (Prim (AData training)).
Proof.
  eexists. split; [vm_compute; reflexivity|].
  assert (HP : forall h v ns n w path u, param_names shipped h v = Some ns -> existsb (String.eqb n) ns = true -> getattr shipped plain_values h v n = Ok w -> configured shipped plain_values h w path u -> configured shipped plain_values h v (n :: path) u).
  { intros h v ns n w path u H1 H2 H3 H4. apply existsb_exists in H2 as (m & HI & E). apply String.eqb_eq in E. subst m. exact (Configured_param _ _ _ _ _ _ _ _ _ H1 HI H3 H4). }
  assert (HF : forall h p o n w, nth_error h p = Some o -> names (shipped (cls o)) = None -> field (fields o) n = Some w -> configured shipped plain_values h (Ref p) [n] w).
  { intros h p o n w H1 H2 H3. exact (Configured_field _ _ _ _ _ _ _ _ _ H1 H2 H3 (Configured_here _ _ _ _)). }
  split; [|eexists; split; [vm_compute; reflexivity|split]].
  - eapply HP; [vm_compute; reflexivity|vm_compute; reflexivity|vm_compute; reflexivity|]. eapply HP; [vm_compute; reflexivity|vm_compute; reflexivity|vm_compute; reflexivity|].
    eapply HP; [vm_compute; reflexivity|vm_compute; reflexivity|vm_compute; reflexivity|]. eapply HF; vm_compute; reflexivity.
  - eapply HP; [vm_compute; reflexivity|vm_compute; reflexivity|vm_compute; reflexivity|]. eapply HP; [vm_compute; reflexivity|vm_compute; reflexivity|vm_compute; reflexivity|].
    eapply HP; [vm_compute; reflexivity|vm_compute; reflexivity|vm_compute; reflexivity|]. eapply HF; vm_compute; reflexivity.
  - eapply HP; [vm_compute; reflexivity|vm_compute; reflexivity|vm_compute; reflexivity|]. eapply HP; [vm_compute; reflexivity|vm_compute; reflexivity|vm_compute; reflexivity|]. eapply HF; vm_compute; reflexivity.
Qed.

(* ----- the wrapper ----- *)
Lemma skipped_segment : exists key v h', wrapper shipped plain_values (Ref 0) [(key, v)] config = (Ok (Ref 0, []), h') /\ path_of key = ["foo"; "n_iter"] /\
  getattr shipped plain_values config (Ref 0) "foo" = Raise AttributeError /\ stored config 0 "n_iter" = Some (int 32) /\ stored h' 0 "n_iter" = Some v /\ v <> int 32.
Proof. exists "foo__n_iter", (int 5). eexists. split; [vm_compute; reflexivity|]. repeat split; try (vm_compute; reflexivity). discriminate. Qed.
Lemma method_overwritten : exists h', wrapper shipped plain_values (Ref 0) [("fit", int 3)] config = (Ok (Ref 0, []), h') /\
  (exists ns, param_names shipped config (Ref 0) = Some ns /\ ~ In "fit" ns) /\ getattr shipped plain_values config (Ref 0) "fit" = Ok (Prim (AMember "fit")) /\ getattr shipped plain_values h' (Ref 0) "fit" = Ok (int 3).
Proof.
  eexists. split; [vm_compute; reflexivity|]. split; [eexists; split; [vm_compute; reflexivity|]|split; vm_compute; reflexivity].
  intros HI. cbn in HI. repeat (destruct HI as [HI|HI]; [discriminate HI|]). exact HI.
Qed.
Lemma calls_share : exists v h1 h2, call_wrapper shipped plain_values (Ref 0) None [("n_iter", v)] config = (Ok (Ref 0, []), h1) /\ call_wrapper shipped plain_values (Ref 0) None [] h1 = (Ok (Ref 0, []), h2) /\
  stored config 0 "n_iter" = Some (int 32) /\ v <> int 32 /\ stored h2 0 "n_iter" = Some v.
Proof. exists (int 5). do 2 eexists. split; [vm_compute; reflexivity|]. split; [vm_compute; reflexivity|]. repeat split; try (vm_compute; reflexivity). discriminate. Qed.
Lemma leads_of h : forall path v u, walk shipped plain_values h v path = u -> forallb (fun k => match getattr shipped plain_values h (walk shipped plain_values h v (firstn k path)) (nth k path "") with Ok _ => true | Raise _ => false end) (seq 0 (length path)) = true ->
  leads shipped plain_values h v path u.
Proof.
  induction path as [|n path IH]; intros v u HW HB; [cbn in HW; subst u; constructor|]. cbn [length seq forallb firstn nth] in HB. apply andb_prop in HB as [H1 H2]. cbn in H1.
  unfold walk in HW. cbn [fold_left] in HW. destruct (getattr shipped plain_values h v n) as [w|e] eqn:EG; [|discriminate]. eapply Leads_on; [exact EG|]. apply IH; [exact HW|].
  rewrite <- seq_shift in H2. rewrite forallb_forall in H2 |- *. intros k HK. specialize (H2 (S k) (in_map S _ _ HK)). cbn [firstn nth] in H2. unfold walk in H2. cbn [fold_left] in H2. rewrite EG in H2. exact H2.
Qed.
Lemma defaults_shared : exists key v h', wrapper shipped plain_values (Ref 0) [(key, v)] config = (Ok (Ref 0, []), h') /\ path_of key = ["rule_discovery"; "mutation"; "sigma"] /\
  leads shipped plain_values config (Ref 26) ["rule_discovery"; "mutation"; "sigma"] (flt (61 # 50)) /\ leads shipped plain_values h' (Ref 26) ["rule_discovery"; "mutation"; "sigma"] v /\ v <> flt (61 # 50).
Proof.
  exists "rule_discovery__mutation__sigma", (flt 2). eexists. split; [vm_compute; reflexivity|]. split; [vm_compute; reflexivity|]. split; [apply leads_of; vm_compute; reflexivity|]. split; [apply leads_of; vm_compute; reflexivity|]. discriminate.
Qed.
Lemma config_target : target shipped plain_values config (Ref 0) "solution_composition__selection__k" 17 "k".
Proof. exists ["solution_composition"; "selection"]. eexists. split; [reflexivity|]. split; [apply leads_of; vm_compute; reflexivity|]. vm_compute. reflexivity. Qed.
Lemma config_target2 : target shipped plain_values config (Ref 0) "rule_discovery__lmbda" 1 "lmbda".
Proof. exists ["rule_discovery"]. eexists. split; [reflexivity|]. split; [apply leads_of; vm_compute; reflexivity|]. vm_compute. reflexivity. Qed.
Lemma parameter_on h v n w ns : param_names shipped h v = Some ns -> existsb (String.eqb n) ns = true -> getattr shipped plain_values h v n = Ok w -> parameter shipped plain_values h v [n] w.
Proof. intros H1 H2 H3. apply existsb_exists in H2 as (m & HI & E). apply String.eqb_eq in E. subst m. exact (Param_here _ _ _ _ _ _ _ H1 HI H3). Qed.
Lemma parameter_in h v n w ns key u : param_names shipped h v = Some ns -> existsb (String.eqb n) ns = true -> getattr shipped plain_values h v n = Ok w -> parameter shipped plain_values h w key u -> parameter shipped plain_values h v (n :: key) u.
Proof. intros H1 H2 H3 H4. apply existsb_exists in H2 as (m & HI & E). apply String.eqb_eq in E. subst m. exact (Param_deep _ _ _ _ _ _ _ _ _ H1 HI H3 H4). Qed.
Lemma config_missing : parameter shipped plain_values config (Ref 1) ["init"; "bounds"] none /\ ends_with "bounds" "bounds" = true /\ forall n, In n ["init"; "bounds"] -> ~ In n assigned.
Proof.
  split; [eapply parameter_in; [vm_compute; reflexivity|vm_compute; reflexivity|vm_compute; reflexivity|eapply parameter_on; vm_compute; reflexivity]|]. split; [reflexivity|].
  intros n HN HA. cbn in HN, HA. decompose [or] HN; try contradiction; subst n; repeat (destruct HA as [HA|HA]; [discriminate HA|]); exact HA.
Qed.
Lemma prepared_mutation : exists rd mt x, stored prepared_heap 0 "rule_discovery_" = Some rd /\ stored prepared_heap 0 "matching_type_" = Some mt /\
  parameter shipped plain_values prepared_heap rd ["mutation"; "matching_type"] mt /\ leads shipped plain_values prepared_heap rd ["mutation"] (Ref x) /\
  uses (ckind (shipped (class_of prepared_heap (Ref x)))) (class_of prepared_heap mt) "execute" "ordered_bound" /\ stored prepared_heap x "execute" = Some (Prim (AMember "ordered_bound")).
Proof.
  do 3 eexists. split; [vm_compute; reflexivity|]. split; [vm_compute; reflexivity|].
  split; [eapply parameter_in; [vm_compute; reflexivity|vm_compute; reflexivity|vm_compute; reflexivity|eapply parameter_on; vm_compute; reflexivity]|].
  split; [apply leads_of; vm_compute; reflexivity|]. split; [|vm_compute; reflexivity]. vm_compute. constructor.
Qed.
Lemma type_set classes builtins root key v h p r h' : key <> "print_config" -> target classes builtins h root key p "matching_type" ->
  wrap_one classes builtins root key v h = (r, h') ->
  stored h' p "matching_type" = Some v /\ changed_only (fun q m => q = p /\ In m ["matching_type"; "execute"; "generate_matching_function"]) h h'.
Proof. intros HK. apply L_Wrapper.wrap_known_type. apply String.eqb_neq. exact HK. Qed.
Lemma unknown_reported classes builtins root key v h steps n o e : key <> "print_config" -> path_of key = (steps ++ [n])%list ->
  leads classes builtins h root steps o -> getattr classes builtins h o n = Raise e -> wrap_one classes builtins root key v h = (Ok true, h).
Proof. intros HK. apply L_Wrapper.wrap_unknown. apply String.eqb_neq. exact HK. Qed.
Lemma config_target3 : target shipped plain_values config (Ref 0) "rule_discovery__mutation__matching_type" 3 "matching_type".
Proof. exists ["rule_discovery"; "mutation"]. eexists. split; [reflexivity|]. split; [apply leads_of; vm_compute; reflexivity|]. vm_compute. reflexivity. Qed.
Lemma target_only h root key p n p' n' : target shipped plain_values h root key p n -> target shipped plain_values h root key p' n' -> p' = p /\ n' = n.
Proof.
  intros (s1 & w1 & E1 & L1 & _) (s2 & w2 & E2 & L2 & _). rewrite E1 in E2. apply app_inj_tail in E2 as [<- <-]. pose proof (L_Wrapper.leads_functional _ _ _ _ _ _ L1 _ L2) as E. injection E as ->. split; reflexivity.
Qed.
Definition touched (h : heap) (root : val) (p : nat) (n : string) (key : string) : bool :=
  existsb (fun k => String.eqb (nth k (path_of key) "") n && match walk shipped plain_values h root (firstn k (path_of key)) with Ref q => Nat.eqb q p | Prim _ => false end)%bool (seq 0 (length (path_of key))).
Lemma touched_ok h root p n key : touched h root p n key = false -> ~ touches shipped plain_values h root p n key.
Proof.
  intros HT (a & b & E & HL). apply Bool.not_true_iff_false in HT. apply HT. apply existsb_exists. exists (length a). rewrite E. split; [apply in_seq; rewrite app_length; cbn [length]; lia|].
  rewrite firstn_app, Nat.sub_diag, firstn_all, app_nil_r, (L_Wrapper.walk_leads _ _ _ _ _ _ HL), Nat.eqb_refl. rewrite app_nth2, Nat.sub_diag by lia. cbn [nth]. rewrite String.eqb_refl. reflexivity.
Qed.
Lemma two_keywords : let kwargs := [("solution_composition__selection__k", int 3); ("rule_discovery__lmbda", int 7)] in
  NoDup (map fst kwargs) /\
  (forall key v, In (key, v) kwargs -> key <> "print_config" /\ exists p n, target shipped plain_values config (Ref 0) key p n /\ n <> "matching_type") /\
  (forall key1 v1 key2 v2 p n, In (key1, v1) kwargs -> In (key2, v2) kwargs -> key1 <> key2 -> target shipped plain_values config (Ref 0) key1 p n -> ~ touches shipped plain_values config (Ref 0) p n key2).
Proof.
  cbn [map fst]. split; [repeat constructor; cbn; intuition discriminate|]. split.
  - intros key v [E|[E|[]]]; injection E as <- <-; (split; [discriminate|]); do 2 eexists; (split; [first [exact config_target|exact config_target2]|discriminate]).
  - intros key1 v1 key2 v2 p n [E1|[E1|[]]] [E2|[E2|[]]] HN HT; injection E1 as <- <-; injection E2 as <- <-; try congruence.
    + destruct (target_only _ _ _ _ _ _ _ config_target HT) as [-> ->]. apply touched_ok. vm_compute. reflexivity.
    + destruct (target_only _ _ _ _ _ _ _ config_target2 HT) as [-> ->]. apply touched_ok. vm_compute. reflexivity.
Qed.
