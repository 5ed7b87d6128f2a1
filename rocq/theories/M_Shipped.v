(* The library's components in the places of the estimator's parameters (suprb.py:163-185, 240-272). *)
From Verif Require Import PyNum PyList PyMon PyRng M_Matching M_Rule M_RuleGen M_Mixing M_Discovery M_Novelty M_Solution M_Composition M_Fit.

(* constraint.py:24-58 as the user passes them: the bounds of Clip may be missing *)
Inductive given_constraint : Type := GivenClip (b : option bounds) | GivenMinRange (mr : Q) | GivenCombined (mr : Q) (b : option bounds).
(* suprb.py:312-318 _init_bounds: missing bounds are estimated from the training data.  The bounds parameter of init is
   estimated too, but only used when a rule is made without a mean, which discovery never does. *)
Definition init_bounds (X : matrix) (k : given_constraint) : res constraint :=
  let? est := estimate_bounds X in
  let get b := match b with Some b => b | None => est end in
  Ok (match k with GivenClip b => Clip (get b) | GivenMinRange mr => MinRange mr | GivenCombined mr b => CombinedConstraint mr (get b) end).
Definition set_constraint (k : constraint) (c : dcfg) : dcfg := mkDcfg (d_type c) (d_init c) k (d_accept c) (d_origin c).

Section Shipped.
Variable L : learner.
(* np.random.default_rng(seed sequence) *)
Variable rngof : stream -> rng.

(* what discovery reads: pool_ and elitist_; without an elitist the mixing model is never asked for *)
Definition discovery_env (X : matrix) (y : targets) (pool : list (rule L)) (el : option (elite L)) : denv L :=
  mkDenv X y pool (option_map ebits el) (match el with Some b => emix b | None => mkMixing KeepAll ExpAsIs 1 end).

(* es/es.py with rule/base.py:75-99.  d_type is the matching type of the estimator (suprb.py:320-323).
   spawn_random_states is a generator function (utils.py:35-38): it spawns when the first task is made. *)
Definition es_initial (c : escfg) (D : denv L) (n : nat) : St rng (list (rule L)) :=
  let* xs := origins (d_origin (es_d c)) D n in mmap (new_rule (es_d c) D) xs.
Definition es_discovery (c : escfg) (k : given_constraint) : discovery L :=
  mkDiscovery escfg
    (fun X => let? c := es_new c in let? k := init_bounds X k in
              Ok (mkEs (set_constraint k (es_d c)) (es_iter c) (es_lambda c) (es_operator c) (es_delay c) (es_mut c) (es_sel c)))
    (fun X y pool el n s c =>
       let D := discovery_env X y pool el in
       let g := rngof (sstream s) in
       let started := match fst (es_initial c D n g) with Ok (_ :: _) => n | _ => 0%nat end in
       (fst (es_optimize c D n (fun i => rngof (child s (spawned s + i))) g), (started, c))).
(* rs/rs.py *)
Definition rs_discovery (c : rscfg) (k : given_constraint) : discovery L :=
  mkDiscovery rscfg
    (fun X => let? k := init_bounds X k in Ok (mkRs (set_constraint k (rs_d c)) (rs_generated c) (rs_sel c)))
    (fun X y pool el n s c => (fst (rs_optimize c (discovery_env X y pool el) n (rngof (sstream s))), (0%nat, c))).
(* ns/ns.py.  Rule objects keep the attributes novelty search gave them, so the state holds the pool as cells; they are the
   rules of pool_, which nobody else extends. *)
Definition with_constraint (k : constraint) (c : nscfg) : nscfg :=
  mkNs (set_constraint k (ns_d c)) (ns_iter c) (ns_mu c) (ns_lambda c) (ns_roh c) (ns_elitists c) (ns_use_pop c)
       (ns_rate c) (ns_mut c) (ns_sel c) (ns_calc c) (ns_type c) (ns_archive c) (ns_k c).
Definition ns_discovery (c : nscfg) (k : given_constraint) : discovery L :=
  mkDiscovery (nscfg * list (cell L))
    (fun X => let? c := ns_new c in let? k := init_bounds X k in Ok (with_constraint k c, []))
    (fun X y _ el n s d =>
       let D := discovery_env X y [] el in
       match fst (ns_optimize (fst d) X y (snd d) (delite D) (dmix D) n (rngof (sstream s))) with
       | Ok out => (Ok (map crule out), (0%nat, (fst d, snd d ++ out)))
       | Raise x => (Raise x, (0%nat, d))
       end).

(* optimizer/solution/base.py.  fit: the fitness, given max_genome_length_ (suprb.py:179).
   Simplification: when optimize raises, the population it leaves behind is not recorded; nobody looks at it. *)
Section Composition.
Context {K : skind}.
Variables (O : optimizer K) (i : ostate O) (c : ccfg) (mix : mixing) (f : nat -> Q -> nat -> nat -> num).
Definition step_env (X : matrix) (y : targets) (m : nat) (pool : list (rule L)) : env L := mkEnv pool X y mix (f m).
(* the elitist as it is read by the estimator, the discovery and the logger *)
Definition read_elitist (st : comp O) : HSt K (option solution) :=
  let* b := M_Composition.elitist st in
  match b with
  | None => ret None
  | Some r => let* bits := genome r in let* a := get_satt r in ret (Some (mkSolution bits mix a))
  end.
Definition shipped_composition : composition L :=
  mkComposition (comp O * hst K)
    (Ok (fresh_comp O i, mkH [] [] (mkRng (fun _ => 0) 0)))
    (fun X y m pool s z =>
       match optimize O c (step_env X y m pool) (rngof (sstream s)) (fst z) (snd z) with
       | (Ok st, h) => (Ok tt, (st, h))
       | (Raise x, h) => (Raise x, (fst z, h))
       end)
    (fun z => fst (read_elitist (fst z) (snd z)))
    (fun z => fst (mmap get_satt (cpop (fst z)) (snd z))).
End Composition.
End Shipped.
Arguments read_elitist {K O}. Arguments step_env {L}. Arguments discovery_env {L}. Arguments es_initial {L}.
