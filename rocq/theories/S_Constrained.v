(* Specification vocabulary for the region the rules of a learned model may lie in. *)
From Coq Require Import Qminmax.
From Verif Require Import PyNum PyList PyMon PyRng M_Matching S_Matching M_Rule M_RuleGen M_Discovery M_Novelty M_Fit M_Shipped.

(* the discoveries of the library with the representation and the constraint they work with *)
Inductive works_with (L : learner) (rngof : stream -> rng) : discovery L -> mtype -> given_constraint -> Prop :=
| With_es c k : works_with L rngof (es_discovery L rngof c k) (d_type (es_d c)) k
| With_rs c k : works_with L rngof (rs_discovery L rngof c k) (d_type (rs_d c)) k
| With_ns c k : works_with L rngof (ns_discovery L rngof c k) (d_type (ns_d c)) k.
(* the smallest region that holds all training samples *)
Definition bounding (X : matrix) (space : bounds) : Prop :=
  (forall x, In x X -> in_space space x) /\
  forall other, (forall x, In x X -> in_space other x) -> Forall2 (fun o s => fst o <= fst s /\ snd s <= snd o) other space.
(* the region rules are clipped to: the one the user gave, or that of the training data *)
Inductive clips_to (X : matrix) : given_constraint -> bounds -> Prop :=
| To_given b : proper_space b -> clips_to X (GivenClip (Some b)) b
| To_given_combined mr b : proper_space b -> clips_to X (GivenCombined mr (Some b)) b
| To_data b : bounding X b -> clips_to X (GivenClip None) b
| To_data_combined mr b : bounding X b -> clips_to X (GivenCombined mr None) b.
(* mutations that only move the limits apart *)
Inductive growing : rmutation -> Prop :=
| Grow_halfnorm s : 0 <= s -> growing (Mut (MutHalfnormIncrease (Scalar s)))
| Grow_uniform s : 0 <= s -> growing (Mut (MutUniformIncrease (Scalar s))).
(* in every dimension at least half the minimum range, or all the room there is *)
Definition roomy (mr : Q) (space : bounds) (m : matching) : Prop :=
  Forall2 (fun lh b => Qmin (mr / 2) (snd lh - fst lh) <= hi (mt m) b - lo (mt m) b) space (bnd m).
