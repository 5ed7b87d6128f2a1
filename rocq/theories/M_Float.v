(* The conditions of rules, their constraints and the mixing of rules once more, now in double precision (PyFloat):
   suprb/rule/matching.py, optimizer/rule/constraint.py, rule/initialization.py, optimizer/rule/mutation.py, optimizer/rule/origin.py,
   solution/mixing_model.py and sklearn's mean_squared_error.  The operations stand in the order in which numpy carries them out. *)
From Verif Require Import PyNum PyFloat PyList PyMon M_Matching.

Definition fbounds : Type := list (num * num).
Record fmatching : Type := mkF { fmt : mtype; fbnd : fbounds }.

(* matching.py:57-58, 92-95, 139-143, 184-187 *)
Definition flimits (t : mtype) (b : num * num) : num * num :=
  match t with
  | OrderedBound => b
  | UnorderedBound => (fmin (fst b) (snd b), fmax (fst b) (snd b))
  | CenterSpread => (fsub (fst b) (snd b), fadd (fst b) (snd b))
  | MinPercentage => (fst b, fadd (fst b) (fmul (snd b) (fsub (Fin 1) (fst b))))
  end.
Fixpoint frow_matches (t : mtype) (bs : fbounds) (x : list num) : bool :=
  match bs, x with
  | b :: bs', xi :: x' => (nle (fst (flimits t b)) xi && nle xi (snd (flimits t b))) && frow_matches t bs' x'
  | _, _ => true
  end.
(* 61-64, 98-102, 145-151, 189-193 *)
Definition fwidth (t : mtype) (b : num * num) : num :=
  match t with
  | OrderedBound => fsub (snd b) (fst b)
  | UnorderedBound => let d := fsub (snd b) (fst b) in fmax d (nneg d)
  | CenterSpread => fsub (fclip (Fin (-(1))) (Fin 1) (fadd (fst b) (snd b))) (fclip (Fin (-(1))) (Fin 1) (fsub (fst b) (snd b)))
  | MinPercentage => fsub (fadd (fst b) (fmul (snd b) (Fin 2))) (fst b)
  end.
(* 69-71, 107-108, 161-163, 203-205 *)
Definition fclip_pair (t : mtype) (lh b : num * num) : num * num :=
  match t with
  | OrderedBound => (fclip (fst lh) (snd lh) (fst b), fclip (fst lh) (snd lh) (snd b))
  | UnorderedBound => b
  | CenterSpread => (fclip (Fin (-(1))) (Fin 1) (fst b), fclip (Fin 0) (Fin 2) (snd b))
  | MinPercentage => (fclip (Fin (-(1))) (Fin 1) (fst b), fclip (Fin 0) (Fin 1) (snd b))
  end.
Definition fclipped (m : fmatching) (space : fbounds) : fmatching := mkF (fmt m) (map2 (fclip_pair (fmt m)) space (fbnd m)).
(* 73-78, 165-169, 207-213.  UnorderedBound.min_range is left out: its indexing is wrong anyway (M_Matching) *)
Definition fmin_range_pair (t : mtype) (mr : num) (b : num * num) : num * num :=
  if nlt (fwidth t b) mr then
    let h := fdiv mr (Fin 2) in
    match t with
    | OrderedBound => (fsub (fst b) h, fadd (snd b) h)
    | CenterSpread => (fst b, fadd (snd b) h)
    | MinPercentage => (fsub (fst b) h, fadd (snd b) mr)
    | UnorderedBound => b
    end
  else b.
Definition fmin_range (m : fmatching) (mr : num) : fmatching :=
  mkF (fmt m) (if nlt (Fin 0) mr then map (fmin_range_pair (fmt m) mr) (fbnd m) else fbnd m).
(* constraint.py:34-35 *)
Definition fconstrain (mr : num) (space : fbounds) (m : fmatching) : fmatching := fclipped (fmin_range m mr) space.

(* initialization.py:114-115, 180-186: what is drawn is a parameter *)
Definition fmean_init (x : list num) : fmatching := mkF OrderedBound (combine x x).
Definition fhalfnorm_init (x down up : list num) : fmatching := mkF OrderedBound (combine (map2 fsub x down) (map2 fadd x up)).
(* mutation.py:119-123, 164-168 with what is drawn; np.sort of two numbers *)
Definition fsort (b : num * num) : num * num := if nlt (snd b) (fst b) then (snd b, fst b) else b.
Definition fincrease (m : fmatching) (noise : fbounds) : fmatching :=
  mkF (fmt m) (map fsort (map2 (fun b n => (fsub (fst b) (fst n), fadd (snd b) (snd n))) (fbnd m) noise)).
(* numpy's uniform(low, high), u: what random() returns.  origin.py:31-32, initialization.py:80-82 *)
Definition funiform (low high u : num) : num := fadd low (fmul (fsub high low) u).

(* mixing_model.py:125-130, for error, (capped) experience and weight of a rule *)
Definition ftau (error experience weight : num) : num := fmul (fdiv (Fin 1) error) (fmul experience weight).
(* 94-105, 132-141 for one sample: each rule with its prediction, if it matches the sample, and its tau; the others contribute 0.
   np.sum along the first axis adds row by row *)
Definition fmix (rules : list (option num * num)) : num :=
  let pred := fsum (map (fun r => match fst r with Some p => fmul p (snd r) | None => fmul (Fin 0) (snd r) end) rules) in
  let total := fsum (map (fun r => match fst r with Some _ => snd r | None => Fin 0 end) rules) in
  fdiv pred (if neqb total (Fin 0) then Fin 1 else total).
(* rule/base.py:84, solution/base.py:58: max(mean_squared_error(y, p), 1e-4); the mean adds one after the other (numpy adds in blocks) *)
Definition ferror (y p : list num) : num :=
  let e := fdiv (fsum (map2 (fun a b => let d := fsub a b in fmul d d) y p)) (Fin (qofnat (length y))) in
  if nlt e (round (Fin (1 # 10000))) then round (Fin (1 # 10000)) else e.
