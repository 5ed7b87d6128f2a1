(* Specification vocabulary for particle swarm and grey wolves. *)
From Verif Require Import PyNum PyList PyMon PyRng M_Matching M_Rule M_Mixing M_Solution S_Solution M_Swarm S_Aco.

(* one coordinate per rule of the pool *)
Definition fits_pool (n : nat) (m : movement) (p : particle) : Prop :=
  match m with
  | MSigmoid _ _ _ => length (p_pos p) = n /\ length (p_bestpos p) = n /\ length (p_vel p) = n
  | MSigmoidQuantum => length (p_pos p) = n /\ length (p_bestpos p) = n
  | MBinaryQuantum _ _ => True
  end.
(* positions in the unit interval, velocities up to the maximum *)
Definition tame (m : movement) (p : particle) : Prop :=
  match m with
  | MSigmoid _ _ vmax => Forall (in_range 0 1) (p_pos p) /\ Forall (in_range 0 1) (p_bestpos p) /\ Forall (in_range (- vmax) vmax) (p_vel p)
  | MSigmoidQuantum => Forall (in_range_or_nan 0 1) (p_pos p) /\ Forall (in_range_or_nan 0 1) (p_bestpos p)
  | MBinaryQuantum _ _ => True
  end.
(* a particle: a genome as long as the pool, a measured best, coordinates that fit *)
Definition flies {L} (E : env L) (m : movement) (s : hst plain) (p : particle) : Prop :=
  (exists bits a, shows s (p_sol p) bits a /\ length bits = length (epool E)) /\ honest E s (p_best p) /\
  fits_pool (length (epool E)) m p /\ tame m p.
(* the swarm: its members are the population, and no best is one of the moving solutions *)
Definition swarm_ok {L} (E : env L) (m : movement) (s : hst plain) (pop : list nat) (ps : list particle) : Prop :=
  map p_sol ps = pop /\ Forall (flies E m s) ps /\ forall p q, In p ps -> In q ps -> p_sol p <> p_best q.
(* what an iteration does to a best: it stays, or gives way to a copy of the current solution if that is strictly fitter *)
Definition improved (s s' : hst plain) (p p' : particle) : Prop :=
  p_sol p' = p_sol p /\
  exists fb f, has_fit s (p_best p) fb /\ has_fit s' (p_sol p) f /\
    (p_best p' = p_best p /\ has_fit s' (p_best p') fb /\ nlt fb f = false \/
     ~ live s (p_best p') /\ nlt fb f = true /\
     exists bits a, shows s' (p_sol p) bits (Some a) /\ shows s' (p_best p') bits (Some a)).
(* how many of the particles have a one at position i *)
Definition ones_at (xs : list (list bool)) (i : nat) : nat := length (filter (fun x => nth i x false) xs).
(* the parameter of the classical movement makes sense *)
Definition vmax_ok (m : movement) : Prop := match m with MSigmoid _ _ vmax => 0 <= vmax | _ => True end.
(* the best is a copy of the current solution *)
Definition twin (s : hst plain) (p : particle) : Prop := exists bits a, shows s (p_sol p) bits (Some a) /\ shows s (p_best p) bits (Some a).
(* every genome as long as the pool *)
Definition sized_pop {L} (E : env L) (s : hst plain) (pop : list nat) : Prop :=
  Forall (fun r => exists bits a, shows s r bits a /\ length bits = length (epool E)) pop.
(* in how many positions two genomes differ *)
Definition apart (a b : list bool) : nat := length (filter (fun xy => xorb (fst xy) (snd xy)) (combine a b)).
(* bit by bit from one of two genomes: the second where the number drawn is at most the limit *)
Definition mixed (limit : num) (us : list Q) (own other bits : list bool) : Prop :=
  length bits = length us /\
  forall i u, nth_error us i = Some u -> nth_error bits i = if nle (Fin u) limit then nth_error other i else nth_error own i.
