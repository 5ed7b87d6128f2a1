(* numpy reductions over float arrays that may hold inf and NaN. *)
From Verif Require Import PyNum PyList PyMon.

(* sum([...]) starts with the int 0 *)
Definition nsum (l : list num) : num := fold_left nadd l (Fin 0).
Definition nlen {A} (l : list A) : num := Fin (qofnat (length l)).
(* np.mean: NaN for an empty array (with a warning) *)
Definition nmean (l : list num) : num := ndiv (nsum l) (nlen l).
(* np.maximum / np.minimum: NaN wins *)
Definition nmax2 (a b : num) : num := if is_nan a then a else if is_nan b then b else if nlt a b then b else a.
Definition nmin2 (a b : num) : num := if is_nan a then a else if is_nan b then b else if nlt b a then b else a.
(* np.max / np.min: ValueError for an empty array *)
Definition nmax (l : list num) : res num :=
  match l with [] => Raise ValueError | x :: l' => Ok (fold_left nmax2 l' x) end.
Definition nmin (l : list num) : res num :=
  match l with [] => Raise ValueError | x :: l' => Ok (fold_left nmin2 l' x) end.
(* np.var *)
Definition nvar (l : list num) : num :=
  let m := nmean l in nmean (map (fun x => let d := nsub x m in nmul d d) l).
(* np.median: NaN if there is one (or nothing); the mean of the two middle elements for even lengths *)
Definition nmedian (l : list num) : num :=
  if existsb is_nan l then NaN else
  let s := PyList.sort nlt l in
  let k := Nat.div2 (length l) in
  if Nat.odd (length l) then nth k s NaN
  else match l with
       | [] => NaN
       | _ => ndiv (nadd (nth (k - 1) s NaN) (nth k s NaN)) (Fin 2)
       end.
(* np.unique(l).size: NaNs count once (numpy >= 1.21) *)
Definition same_num (a b : num) : bool := neqb a b || (is_nan a && is_nan b).
Fixpoint distinct (l : list num) : list num :=
  match l with
  | [] => []
  | x :: l' => x :: filter (fun y => negb (same_num x y)) (distinct l')
  end.
