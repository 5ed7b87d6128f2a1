(* Rates, pheromones and means in double precision (PyFloat).
   optimizer/solution/saga1/base.py, saga2/crossover.py, saga2/mutation.py, aco/base.py, logging/default.py. *)
From Verif Require Import PyNum PyFloat PyList PyMon M_FloatFitness.

(* Python's min(a, b) and max(a, b) *)
Definition pymin (a b : num) : num := if nlt b a then b else a.
Definition pymax (a b : num) : num := if nlt a b then b else a.
(* Python's division of floats *)
Definition pyfdiv (a b : num) : res num := if neqb b (Fin 0) then Raise ZeroDivisionError else Ok (fdiv a b).

(* np.mean(l) (saga1/base.py:148, saga2/base.py:98, 171), sum(l) / len(l) (logging/default.py:45), n = len(l); t: the order in which the numbers are added *)
Definition fmean (t : order) (n : nat) : num := fdiv (fsum_by t) (Fin (qofnat n)).
(* saga1/base.py:147-148 *)
Definition fgdm (t : order) (n : nat) (best : num) : num := fdiv (fmean t n) best.

(* saga1/base.py:41-88 *)
Record frange : Type := mkRange { v_min : num; v_max : num; m_min : num; m_max : num; m_mult : num; c_min : num; c_max : num; c_mult : num }.
(* saga1/base.py:150-169: mutation rate and crossover rate *)
Definition fadjust (c : frange) (gdm : num) (r : num * num) : res (num * num) :=
  if nlt (v_max c) gdm then
    let? d := pyfdiv (snd r) (c_mult c) in Ok (pymin (m_max c) (fmul (fst r) (m_mult c)), pymax (c_min c) d)
  else if nlt gdm (v_min c) then
    let? d := pyfdiv (fst r) (m_mult c) in Ok (pymax (m_min c) d, pymin (c_max c) (fmul (snd r) (c_mult c)))
  else Ok r.
(* saga1/base.py:96-98: generation after generation *)
Fixpoint fadjusts (c : frange) (gdms : list num) (r : num * num) : res (num * num) :=
  match gdms with [] => Ok r | v :: gdms' => let? r' := fadjust c v r in fadjusts c gdms' r' end.

(* saga2/crossover.py:26-36; lo, hi: crossover_rate_min, crossover_rate_max *)
Definition fxrate (lo hi mean fmn fmx fa fb : num) : num :=
  let m := fdiv (fadd fa fb) (Fin 2) in
  if neqb fmn mean || neqb mean fmx then hi
  else if nle m mean
  then fsub hi (fmul (fsub hi lo) (fdiv (fsub mean m) (fsub mean fmn)))
  else fsub hi (fmul (fsub hi lo) (fdiv (fsub m mean) (fsub fmx mean))).
(* saga2/mutation.py:41-48 *)
Definition fmrate (lo hi mean fmx f : num) : num :=
  if neqb fmx mean then lo
  else if nlt mean f
  then fadd lo (fmul (fsub hi lo) (fdiv (fsub fmx f) (fsub fmx mean)))
  else hi.

(* aco/base.py:104-116: evaporation, what the selected ants leave at one place of the matrix, and clipping *)
Definition fpheromone (evaporation lo hi : num) (deltas : list num) (p : num) : num :=
  fclip lo hi (fold_left fadd deltas (fmul p (fsub (Fin 1) evaporation))).
