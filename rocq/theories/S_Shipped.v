(* The components that come with the library, as parts of the estimator. *)
From Verif Require Import PyNum PyList PyMon PyRng M_Matching M_Rule M_Mixing M_Discovery S_Discovery M_Novelty S_Novelty M_Fit S_Fit M_Shipped.

(* bounds given by the user have one interval per feature *)
Definition given_dim (d : nat) (k : given_constraint) : Prop :=
  match k with GivenClip (Some b) | GivenCombined _ (Some b) => length b = d | _ => True end.
(* a discovery of the library with its constraint and its acceptance criterion *)
Inductive library_discovery (L : learner) (rngof : stream -> rng) : discovery L -> given_constraint -> acceptance -> Prop :=
| Lib_es c k : library_discovery L rngof (es_discovery L rngof c k) k (d_accept (es_d c))
| Lib_rs c k : library_discovery L rngof (rs_discovery L rngof c k) k (d_accept (rs_d c))
| Lib_ns c k : type_ok (ns_type c) -> library_discovery L rngof (ns_discovery L rngof c k) k (d_accept (ns_d c)).

(* ----- what the record of a fit call says about the elitist ----- *)
(* the elitist that discovery is given has one bit per rule of the pool *)
Definition elite_fits {L} (c : dcall L) : Prop := match d_elite c with Some b => length (ebits b) = length (d_pool c) | None => True end.
(* a step that succeeds leaves an elitist measured on the pool it was given; one that fails does not do so because of lengths or addresses *)
Definition sound_step {L} (mix : mixing) (f : nat -> Q -> nat -> nat -> num) X y (c : ccall L) : Prop :=
  match c_out c with
  | Ok _ => forall b, c_best c = Ok (Some b) -> smix b = mix /\ length (sbits b) = length (c_pool c) /\
              exists g g', sol_fit L mix (f (c_max c)) (sbits b) (c_pool c) X y g = (Ok (smeasured b), g')
  | Raise x => x <> AssertionError /\ x <> Dangling
  end.
(* ----- origins that ask the elitist ----- *)
Inductive asks_elitist (L : learner) (rngof : stream -> rng) : discovery L -> Prop :=
| Ask_es c k use : d_origin (es_d c) = SquaredError use -> asks_elitist L rngof (es_discovery L rngof c k)
| Ask_rs c k use : d_origin (rs_d c) = SquaredError use -> asks_elitist L rngof (rs_discovery L rngof c k)
| Ask_ns c k use : d_origin (ns_d c) = SquaredError use -> asks_elitist L rngof (ns_discovery L rngof c k).
