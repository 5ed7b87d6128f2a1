(* Model of suprb/fitness.py, suprb/rule/fitness.py and suprb/solution/fitness.py over the reals.
   None stands for a division by zero (numpy: NaN or an infinity). *)
From Coq Require Import Reals Qreals.
From Verif Require Import PyNum PyMon M_Matching.
Open Scope R_scope.

Definition rdiv (a b : R) : option R := if Req_EM_T b 0 then None else Some (a / b).
Definition omap {A B} (f : A -> B) (o : option A) : option B := match o with Some a => Some (f a) | None => None end.
Definition obind {A B} (o : option A) (f : A -> option B) : option B := match o with Some a => f a | None => None end.

(* pseudo_accuracy, fitness.py:15-21 *)
Definition pseudo_accuracy (beta error : R) : res R :=
  if Rlt_dec 0 beta then Ok (exp (- beta * error)) else Raise AssertionError.
(* emary 24-31 *)
Definition emary (alpha x1 x2 : R) : option R := Some (alpha * x1 + (1 - alpha) * x2).
(* wu 34-42 *)
Definition wu (alpha x1 x2 : R) : option R := rdiv ((1 + alpha * alpha) * x1 * x2) (alpha * alpha * x1 + x2).

(* rule/fitness.py.  The error is that of a fitted rule. *)
Inductive rule_fitness_kind : Type :=
| PseudoAccuracy                 (* 10-19 *)
| VolumeEmary (alpha : R)        (* 45-54 *)
| VolumeWu (alpha : R).          (* 57-66 *)
(* np.prod(input_space[:, 1] - input_space[:, 0]), 31-32 *)
Definition space_volume (space : bounds) : Q := qprod (map (fun b => (snd b - fst b)%Q) space).
(* VolumeRuleFitness.__call__ 30-42 *)
Definition volume_fitness (f : R -> R -> option R) (space : bounds) (vol error : R) : res (option R) :=
  let share := rdiv vol (Q2R (space_volume space)) in
  let? acc := pseudo_accuracy 2 error in
  Ok (omap (fun v => v * 100) (obind share (f acc))).
Definition rule_fitness (k : rule_fitness_kind) (space : bounds) (vol error : R) : res (option R) :=
  match k with
  | PseudoAccuracy => let? acc := pseudo_accuracy 2 error in Ok (Some (acc * 100))
  | VolumeEmary a => volume_fitness (emary a) space vol error
  | VolumeWu a => volume_fitness (wu a) space vol error
  end.

(* solution/fitness.py *)
Inductive sol_fitness_kind : Type :=
| PseudoBIC                      (* 10-15 *)
| ComplexityEmary (alpha : R)    (* 41-50 *)
| ComplexityWu (alpha : R).      (* 53-62 *)
(* c_norm 18-19 *)
Definition c_norm (complexity n : R) : option R := omap (fun v => 1 - v) (rdiv complexity n).
(* ComplexitySolutionFitness.__call__ 30-38 *)
Definition complexity_fitness (f : R -> R -> option R) (maxlen : nat) (error : R) (complexity : nat) : res (option R) :=
  let? acc := pseudo_accuracy 2 error in
  Ok (omap (fun v => v * 100) (obind (c_norm (INR complexity) (INR maxlen)) (f acc))).
(* errors are at least 1e-4 (solution/base.py:56); log 0 is -inf in numpy, so an empty genome gives 0 * -inf = NaN: None *)
Definition sol_fitness (k : sol_fitness_kind) (maxlen : nat) (error : R) (complexity input_size : nat) : res (option R) :=
  match k with
  | PseudoBIC => if Nat.eqb input_size 0 then Ok None
                 else Ok (Some (- (INR input_size * ln error + INR complexity * ln (INR input_size))))
  | ComplexityEmary a => complexity_fitness (emary a) maxlen error complexity
  | ComplexityWu a => complexity_fitness (wu a) maxlen error complexity
  end.
