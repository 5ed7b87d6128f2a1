(* Volumes, errors and fitness values in double precision (PyFloat): suprb/rule/fitness.py, suprb/fitness.py, suprb/solution/fitness.py,
   suprb/rule/base.py and suprb/solution/base.py with sklearn's mean_squared_error. *)
From Verif Require Import PyNum PyFloat PyList PyMon M_Matching M_Float.

(* np.prod multiplies one after the other *)
Definition fprod (l : list num) : num := fold_left fmul l (Fin 1).
(* rule/matching.py:66-67, 104-105, 153-154, 195-196 *)
Definition fvolume (m : fmatching) : num := fprod (map (fwidth (fmt m)) (fbnd m)).
(* rule/fitness.py:31-32 *)
Definition fspace_volume (space : fbounds) : num := fprod (map (fun b => fsub (snd b) (fst b)) space).
(* 34 *)
Definition fshare (m : fmatching) (space : fbounds) : num := fdiv (fvolume m) (fspace_volume space).
(* fitness.py:15-21; np.exp is the parameter exp; the assertion is modelled in M_Fitness *)
Definition fpseudo_accuracy (exp : num -> num) (beta error : num) : num := exp (fmul (nneg beta) error).
(* 31; alpha: a double *)
Definition femary (alpha x1 x2 : num) : num := fadd (fmul alpha x1) (fmul (fsub (Fin 1) alpha) x2).
(* 42; alpha ** 2 is the rounded square *)
Definition fwu (alpha x1 x2 : num) : num :=
  let a2 := fmul alpha alpha in fdiv (fmul (fmul (fadd (Fin 1) a2) x1) x2) (fadd (fmul a2 x1) x2).
(* solution/fitness.py:18-19 *)
Definition fc_norm (complexity n : num) : num := fsub (Fin 1) (fdiv complexity n).
(* rule/fitness.py:35-42; acc: pseudo_accuracy(error, beta=2) *)
Definition fvolume_fitness (f : num -> num -> num) (acc : num) (m : fmatching) (space : fbounds) : num := fmul (f acc (fshare m space)) (Fin 100).
(* solution/fitness.py:30-38 *)
Definition fcomplexity_fitness (f : num -> num -> num) (acc : num) (complexity maxlen : num) : num := fmul (f acc (fc_norm complexity maxlen)) (Fin 100).

(* the order in which np.sum adds is numpy's business: any tree *)
Inductive order : Type := Leaf (v : num) | Plus (a b : order).
Fixpoint leaves (t : order) : list num := match t with Leaf v => [v] | Plus a b => leaves a ++ leaves b end.
Fixpoint fsum_by (t : order) : num := match t with Leaf v => v | Plus a b => fadd (fsum_by a) (fsum_by b) end.
(* rule/base.py:84, solution/base.py:58: max(mean_squared_error(y, p), 1e-4), t: the order in which the squared differences are added *)
Definition fsquares (y p : list num) : list num := map2 (fun a b => let d := fsub a b in fmul d d) y p.
Definition ferror_by (t : order) (n : nat) : num :=
  let e := fdiv (fsum_by t) (Fin (qofnat n)) in
  let floor := round (Fin (1 # 10000)) in
  if nlt e floor then floor else e.
