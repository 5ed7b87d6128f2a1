(* Vocabulary for what fit puts out. *)
From Coq Require Import String.
From Verif Require Import PyNum PyList PyMon PyRng M_Matching M_Rule M_Mixing M_Fit S_Fit M_Verbose.

(* the warnings that end a fit, the warning about an empty population, everything else is printed *)
Definition failure (o : output) : bool := match o with FailedValueError _ | FailedOther _ => true | _ => false end.
Definition empty_warning (o : output) : bool := match o with EmptyPopulation => true | _ => false end.
Definition printed (o : output) : bool := negb (failure o) && negb (empty_warning o).
Definition is_progress (o : output) : bool := match o with Progress _ _ _ => true | _ => false end.
Definition about_bounds (o : output) : bool := match o with Progress _ _ (EmptyBounds _) => true | _ => false end.
(* the warning belongs to this exception; NotFittedError is a ValueError *)
Definition reports (o : output) (x : exn) : Prop :=
  match x with ValueError | NotFittedError => o = FailedValueError x | _ => o = FailedOther x end.
(* what a talkative fit prints in its iterations 0 .. k-1 *)
Definition iteration_lines (total n : nat) (i : nat) : list output := [Progress (S i) total (Generating n); Progress (S i) total Optimizing].
Definition lines_until (total n k : nat) : list output := concat (map (iteration_lines total n) (seq 0 k)).
(* this discovery succeeded and left the pool empty *)
Definition left_empty {L} (c : dcall L) : bool := match d_pool c, d_out c with [], Ok [] => true | _, _ => false end.
