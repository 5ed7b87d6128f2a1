(* IEEE 754 double precision: what numpy's and Python's floats do to the exact results of PyNum.  A number is a num whose finite
   values are doubles; zero has no sign.  Every operation rounds its exact result once (to nearest, ties to even). *)
From Verif Require Import PyNum.

(* 2^e *)
Definition two_to (e : Z) : Q := (2 # 1) ^ e.
(* floor(log2 q) for q > 0 *)
Definition log2 (q : Q) : Z :=
  let k := (Z.log2 (Qnum q) - Z.log2 (Zpos (Qden q)))%Z in
  if qle (two_to k) q then k else (k - 1)%Z.
(* the exponent of the last of 53 binary digits; doubles have no digits below 2^-1074 *)
Definition last_digit (q : Q) : Z := Z.max (-1074) (log2 (Qabs q) - 52).
(* the nearest integer, ties to even *)
Definition nearest (q : Q) : Z :=
  let f := Qfloor q in
  let r := q - inject_Z f in
  if qlt r (1 # 2) then f else if qlt (1 # 2) r then (f + 1)%Z else if Z.even f then f else (f + 1)%Z.
(* the nearest double, if exponents were not limited above *)
Definition round_q (q : Q) : Q :=
  if qeq q 0 then 0 else let u := two_to (last_digit q) in Qred (inject_Z (nearest (q / u)) * u).
(* too large numbers become infinite *)
Definition round (x : num) : num :=
  match x with
  | Fin q => let r := round_q q in if qle (two_to 1024) r then PInf else if qle r (- two_to 1024) then NInf else Fin r
  | _ => x
  end.
Definition fadd (a b : num) : num := round (nadd a b).
Definition fsub (a b : num) : num := round (nsub a b).
Definition fmul (a b : num) : num := round (nmul a b).
Definition fdiv (a b : num) : num := round (ndiv a b).
(* np.minimum, np.maximum, np.clip: NaN if there is one *)
Definition fmin (a b : num) : num := if is_nan a || is_nan b then NaN else if nle a b then a else b.
Definition fmax (a b : num) : num := if is_nan a || is_nan b then NaN else if nle a b then b else a.
Definition fclip (lo hi x : num) : num := fmin (fmax x lo) hi.
(* np.sum of a few numbers, one after the other *)
Definition fsum (l : list num) : num := fold_left fadd l (Fin 0).
