(* Whole fit calls of small estimators made of the library's components. *)
From Coq Require Import Lia.
From Verif Require Import PyNum PyList PyMon PyRng L_Num L_List L_Rng M_Matching M_Rule S_Rule M_RuleGen M_Mixing M_Discovery S_Discovery L_RuleProps L_DiscoveryEx L_GenomeProps M_Novelty S_Novelty
  M_Solution S_Solution M_Composition S_Composition M_GenomeOps M_GA M_Sas S_Optimizers L_SasProps M_Fit S_Fit L_Fit L_FitProps L_FitClean L_FitEx M_Shipped S_Shipped L_ShippedFit.

(* a generator for every stream *)
Definition tapes (s : stream) : rng :=
  mkRng (fun k => match Nat.modulo (k + fold_right Nat.add 0 (skey s)) 5 with 0 => -1#2 | 1 => 3#4 | 2 => 1#4 | 3 => 1#2 | _ => - 5#4 end)%nat 0.
Definition d1 (o : origin) : dcfg := mkDcfg OrderedBound MeanInit (Clip []) (MaxError (Fin 1)) o.
Definition es1 : discovery ML := es_discovery ML tapes (mkEs (d1 (Matching true)) 2 2 EsPlus 2 (Mut (MutNormal (Scalar 1))) RFittest) (GivenClip None).
Definition rs1 (o : origin) : discovery ML := rs_discovery ML tapes (mkRs (d1 o) 2 RFittest) (GivenClip None).
Definition ns1 : discovery ML := ns_discovery ML tapes (mkNs (d1 UniformSamples) 2 2 4 1 1 true (1#2) (Mut (MutNormal (Scalar (1#4)))) RFittest NBasic TBasic ANovel 1) (GivenClip None).
Definition mix1 : mixing := mkMixing KeepAll ExpAsIs 1.
(* 1 - error *)
Definition small_error : nat -> Q -> nat -> nat -> num := fun _ e _ _ => Fin (1 - e).
Definition ga_o : optimizer plain := ga (mkG 2 4 (1#4) (SelTournament 2) Uniform (9#10) (1#100)).
Definition arch1 : ccfg := mkCcfg (RandomInit (1#2)) true true.
Definition ga1 : composition ML := shipped_composition ML tapes ga_o tt arch1 mix1 small_error.
(* one member, no archive *)
Definition sas0 : composition ML := shipped_composition ML tapes (sas (sas1 2 1)) 1%nat (mkCcfg ZeroInit true false) mix1 small_error.
Definition par_i : params := par 2 2 1 (IntSeed 7) (-1) 0.
Definition par_n : params := par 2 0 1 (IntSeed 7) (-1) 0.

Lemma dx_data : good_data dx dyy.
Proof. split; [exists 1%nat; split; [discriminate|split; [discriminate|repeat constructor]]|reflexivity]. Qed.
Lemma es1_ready p : seedable (random_state p) -> ready es1 ga1 silent p dx dyy.
Proof. intros H. split; [exact dx_data|]. split; [exact H|]. split; [eexists; reflexivity|]. split; eexists; reflexivity. Qed.
Lemma rs1_ready o p : seedable (random_state p) -> ready (rs1 o) ga1 silent p dx dyy.
Proof. intros H. split; [exact dx_data|]. split; [exact H|]. split; [eexists; reflexivity|]. split; eexists; reflexivity. Qed.
Lemma sas0_ready o p : seedable (random_state p) -> ready (rs1 o) sas0 silent p dx dyy.
Proof. intros H. split; [exact dx_data|]. split; [exact H|]. split; [eexists; reflexivity|]. split; eexists; reflexivity. Qed.
Definition learns (D : discovery ML) (C : composition ML) (p : params) : bool :=
  match fst (run D C p) with Ok _ => negb (is_error (end_of D C p)) | _ => false end.
Definition outs (D : discovery ML) (C : composition ML) (p : params) : list (nat + exn) :=
  map (fun c => match d_out c with Ok l => inl (length l) | Raise x => inr x end) (dcalls (end_of D C p)).
Definition fits (D : discovery ML) (C : composition ML) (p : params) : list (option num) :=
  map (fun c => match c_best c with Ok (Some b) => Some (sfitness (smeasured b)) | _ => None end) (ccalls (end_of D C p)).
Lemma finite_fitness : forall m x, exists q, rfitness ML m x = Fin q. Proof. intros m x. eexists. reflexivity. Qed.

(* with an archive, fit ends as it should *)
Lemma library_returns : forall (L : learner) rngof (D : discovery L) K (O : optimizer K) i cc mix f (G : logger L) p os X y (e : est (recorded_d D) (recorded_c (shipped_composition L rngof O i cc mix f)) G) r e',
  shipped O i -> carchive cc = true -> ready D (shipped_composition L rngof O i cc mix f) G p X y -> fit p os false X y e = (r, e') -> quiet G -> (0 < n_iter p)%nat -> (0 < n_rules p)%nat ->
  (n_initial p = 0%nat \/ (step e < n_iter p)%nat) -> all_python e' ->
  r = Ok tt /\ is_fitted e' = true /\ (is_error e' = true <-> some_call_raised e').
Proof.
  intros L rngof D K O i cc mix f G p os X y e r e' HS HA HR H HQ HI HN HO HP.
  eapply error_state_exactly; eauto; [apply shipped_starts_empty|]. destruct (shipped_calls L rngof D K O i cc mix f G p os X y e r e' HS HR H) as (_ & _ & HD). auto.
Qed.
Lemma extinct_raises : exists (L : learner) rngof (D : discovery L) k a K (O : optimizer K) i cc mix f (G : logger L) p X y e',
  library_discovery L rngof D k a /\ shipped O i /\ ready D (shipped_composition L rngof O i cc mix f) G p X y /\ quiet G /\ (0 < n_iter p)%nat /\ (0 < n_rules p)%nat /\
  fit p 0 false X y (unfitted (recorded_d D) (recorded_c (shipped_composition L rngof O i cc mix f)) G) = (Raise AttributeError, e') /\ ~ some_call_raised e'.
Proof.
  exists ML, tapes, (rs1 UniformSamples), (GivenClip None), (MaxError (Fin 1)), _, (sas (sas1 2 1)), 1%nat, (mkCcfg ZeroInit true false), mix1, small_error, silent, (par 1 0 1 NoSeed (-1) 0), dx, dyy,
    (end_of (rs1 UniformSamples) sas0 (par 1 0 1 NoSeed (-1) 0)).
  split; [apply (Lib_rs ML tapes (mkRs (d1 UniformSamples) 2 RFittest))|]. split; [constructor|]. split; [apply sas0_ready; exact I|]. split; [apply silent_quiet|]. split; [cbn; lia|]. split; [cbn; lia|].
  split; [apply (ran_to (rs1 UniformSamples) sas0); vm_compute; reflexivity|]. apply calm_ok. vm_compute. reflexivity.
Qed.
(* the same data, seeds and components: without initial rules fit learns, with initial rules it fails *)
Lemma initial_rules_hurt : exists (L : learner) rngof (D : discovery L) k a K (O : optimizer K) i cc mix f (G : logger L) p p' X y e1 e2,
  library_discovery L rngof D k a /\ shipped O i /\ carchive cc = true /\ ready D (shipped_composition L rngof O i cc mix f) G p X y /\
  p = mkParams (n_iter p') 0 (n_rules p') (random_state p') (patience p') (delta p') /\
  fit p 0 false X y (unfitted (recorded_d D) (recorded_c (shipped_composition L rngof O i cc mix f)) G) = (Ok tt, e1) /\ is_error e1 = false /\
  fit p' 0 false X y (unfitted (recorded_d D) (recorded_c (shipped_composition L rngof O i cc mix f)) G) = (Ok tt, e2) /\ is_error e2 = true.
Proof.
  exists ML, tapes, (rs1 (SquaredError true)), (GivenClip None), (MaxError (Fin 1)), _, ga_o, tt, arch1, mix1, small_error, silent, par_n, par_i, dx, dyy,
    (end_of (rs1 (SquaredError true)) ga1 par_n), (end_of (rs1 (SquaredError true)) ga1 par_i).
  split; [apply (Lib_rs ML tapes (mkRs (d1 (SquaredError true)) 2 RFittest))|]. split; [constructor|]. split; [reflexivity|]. split; [apply rs1_ready; cbn; lia|]. split; [reflexivity|].
  split; [apply (ran_to (rs1 (SquaredError true)) ga1); vm_compute; reflexivity|]. split; [vm_compute; reflexivity|].
  split; [apply (ran_to (rs1 (SquaredError true)) ga1); vm_compute; reflexivity|]. vm_compute. reflexivity.
Qed.
