(* Numbers as the code sees them.  Finite values are exact rationals; numpy/Python floats that may
   become infinite or NaN are [num].  Rounding and overflow come with PyFloat; the sign of zero
   is not modelled. *)
From Coq Require Export QArith Qabs Qround List Bool ZArith Lia.
Export ListNotations.
Open Scope Q_scope.

(* boolean comparisons on finite values: Python <=, <, == *)
Definition qle (a b : Q) : bool := Qle_bool a b.
Definition qlt (a b : Q) : bool := negb (Qle_bool b a).
Definition qeq (a b : Q) : bool := Qeq_bool a b.

(* np.minimum / np.maximum / np.clip (clip = minimum(maximum(x, low), high)) on finite values *)
Definition qmin (a b : Q) : Q := if qle a b then a else b.
Definition qmax (a b : Q) : Q := if qle a b then b else a.
Definition qclip (lo hi x : Q) : Q := qmin (qmax x lo) hi.

Definition qsum (l : list Q) : Q := fold_right Qplus 0 l.
Definition qprod (l : list Q) : Q := fold_right Qmult 1 l.
Definition qofnat (n : nat) : Q := inject_Z (Z.of_nat n).

(* float64 with its special values *)
Inductive num : Type := Fin (q : Q) | PInf | NInf | NaN.

(* IEEE comparisons: every comparison with NaN is False *)
Definition nlt (a b : num) : bool :=
  match a, b with
  | NaN, _ | _, NaN => false
  | Fin x, Fin y => qlt x y
  | NInf, NInf => false
  | NInf, _ => true
  | _, NInf => false
  | PInf, _ => false
  | Fin _, PInf => true
  end.
Definition nle (a b : num) : bool :=
  match a, b with
  | NaN, _ | _, NaN => false
  | Fin x, Fin y => qle x y
  | NInf, _ => true
  | _, NInf => false
  | _, PInf => true
  | PInf, _ => false
  end.
Definition neqb (a b : num) : bool :=
  match a, b with
  | Fin x, Fin y => qeq x y
  | PInf, PInf | NInf, NInf => true
  | _, _ => false
  end.
Definition is_nan (a : num) : bool := match a with NaN => true | _ => false end.
Definition is_fin (a : num) : bool := match a with Fin _ => true | _ => false end.

Definition nneg (a : num) : num :=
  match a with Fin x => Fin (- x) | PInf => NInf | NInf => PInf | NaN => NaN end.
Definition nadd (a b : num) : num :=
  match a, b with
  | NaN, _ | _, NaN => NaN
  | Fin x, Fin y => Fin (x + y)
  | PInf, NInf | NInf, PInf => NaN
  | PInf, _ | _, PInf => PInf
  | NInf, _ | _, NInf => NInf
  end.
Definition nsub (a b : num) : num := nadd a (nneg b).
Definition nsgn_mul (x : Q) (inf : num) : num :=      (* finite x times an infinity *)
  if qeq x 0 then NaN else if qlt 0 x then inf else nneg inf.
Definition nmul (a b : num) : num :=
  match a, b with
  | NaN, _ | _, NaN => NaN
  | Fin x, Fin y => Fin (x * y)
  | Fin x, i => nsgn_mul x i
  | i, Fin y => nsgn_mul y i
  | PInf, PInf | NInf, NInf => PInf
  | PInf, NInf | NInf, PInf => NInf
  end.
(* numpy division: x/0 is an infinity with the sign of x, 0/0 is NaN *)
Definition ndiv (a b : num) : num :=
  match a, b with
  | NaN, _ | _, NaN => NaN
  | Fin x, Fin y =>
      if qeq y 0 then (if qeq x 0 then NaN else if qlt 0 x then PInf else NInf)
      else Fin (x / y)
  | Fin _, _ => Fin 0
  | PInf, Fin y => if qlt y 0 then NInf else PInf
  | NInf, Fin y => if qlt y 0 then PInf else NInf
  | _, _ => NaN
  end.
(* Python max(a, b): b if b > a else a *)
Definition npymax (a b : num) : num := if nlt a b then b else a.

(* the order the comparisons decide, on non-NaN values *)
Definition Nle (a b : num) : Prop := nle a b = true.
Definition Nlt (a b : num) : Prop := nlt a b = true.
