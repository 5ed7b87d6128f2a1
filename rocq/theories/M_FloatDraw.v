(* Drawing by weights in double precision (PyFloat): the callers' division by the sum and numpy's Generator.choice(..., p=...).
   optimizer/rule/origin.py, optimizer/rule/selection.py, optimizer/solution/ga/selection.py (the same in saga1, saga2, saga3),
   optimizer/solution/abc/base.py, solution/mixing_model.py. *)
From Verif Require Import PyNum PyFloat PyList PyMon M_FloatFitness.

(* origin.py:70, ga/selection.py:29, 41, rule/selection.py:34, abc/base.py:95, mixing_model.py:38; total: the sum of the weights *)
Definition fprobabilities (total : num) (ws : list num) : list num := map (fun w => fdiv w total) ws.
(* numpy's kahan_sum *)
Fixpoint fkahan_from (s c : num) (l : list num) : num :=
  match l with
  | [] => s
  | x :: l' => let y := fsub x c in let t := fadd s y in fkahan_from t (fsub (fsub t s) y) l'
  end.
Definition fkahan (l : list num) : num := match l with [] => Fin 0 | x :: l' => fkahan_from x (Fin 0) l' end.
(* numpy's checks of p: no NaN, nothing negative, the sum is 1 up to sqrt(2^-52) *)
Definition faccepted (p : list num) : bool :=
  let s := fkahan p in
  let d := fsub s (Fin 1) in
  negb (is_nan s) && negb (existsb (fun x => nlt x (Fin 0)) p) && negb (nlt (Fin (two_to (-26))) (fmax d (nneg d))).
(* p.cumsum() divided by its last entry *)
Fixpoint fcumsum_from (s : num) (l : list num) : list num :=
  match l with [] => [] | x :: l' => let s' := fadd s x in s' :: fcumsum_from s' l' end.
Definition fcumsum (l : list num) : list num := match l with [] => [] | x :: l' => x :: fcumsum_from x l' end.
Definition fcdf (p : list num) : list num := let c := fcumsum p in map (fun x => fdiv x (last c (Fin 0))) c.
(* cdf.searchsorted(u, side="right"), u: what random() returns *)
Fixpoint fposition (cdf : list num) (u : num) : nat := match cdf with [] => 0%nat | c :: cdf' => if nlt u c then 0%nat else S (fposition cdf' u) end.
(* choice(np.arange(len(p)), p=p) *)
Definition fchoice (p : list num) (u : num) : res nat := if faccepted p then Ok (fposition (fcdf p) u) else Raise ValueError.

(* ga/selection.py:27-32, origin.py:68-75: without weights (None) all are equally likely; t: the order in which the weights are added *)
Definition fwheel (t : order) (ws : list num) (u : num) : res (option nat) :=
  let total := fsum_by t in
  if neqb total (Fin 0) then Ok None else let? i := fchoice (fprobabilities total ws) u in Ok (Some i).
(* rule/selection.py:34-36, abc/base.py:94-97: the sum is not compared with 0 *)
Definition fwheel_unchecked (t : order) (ws : list num) (u : num) : res nat := fchoice (fprobabilities (fsum_by t) ws) u.
(* origin.py:96-101 *)
Definition fsquared_errors (pred y : list num) : list num := map2 (fun a b => let d := fsub a b in fmul d d) pred y.
