(* Model of suprb/rule/matching.py: the four condition encodings. *)
From Verif Require Import PyNum PyList PyMon.

Definition row := list Q.                      (* one sample: a row of X *)
Definition matrix := list (list Q).            (* X, shape (n_samples, n_features) *)
Definition targets := list Q.                  (* y *)
Definition bounds := list (Q * Q).             (* a (d, 2) array, one pair per dimension *)

(* the four MatchingFunction subclasses, matching.py:46-213 *)
Inductive mtype : Type := OrderedBound | UnorderedBound | CenterSpread | MinPercentage.
Record matching : Type := mkMatching { mt : mtype; bnd : bounds }.

(* The (lower, upper) pair compared with X.
   OrderedBound.__call__ 57-58, UnorderedBound.__call__ 92-95, CenterSpread.__call__ 139-143,
   MinPercentage.__call__ 184-187 *)
Definition limits (t : mtype) (b : Q * Q) : Q * Q :=
  match t with
  | OrderedBound => (fst b, snd b)
  | UnorderedBound => (qmin (fst b) (snd b), qmax (fst b) (snd b))
  | CenterSpread => (fst b - snd b, fst b + snd b)
  | MinPercentage => (fst b, fst b + snd b * (1 - fst b))
  end.

(* np.all((lower <= X) & (X <= upper), axis=1) for one row of the same dimension *)
Fixpoint row_matches (t : mtype) (bs : bounds) (x : row) : bool :=
  match bs, x with
  | b :: bs', xi :: x' =>
      (qle (fst (limits t b)) xi && qle xi (snd (limits t b))) && row_matches t bs' x'
  | _, _ => true
  end.
Definition matches (m : matching) (X : matrix) : list bool := map (row_matches (mt m) (bnd m)) X.

(* The same with numpy's broadcasting rule for the last axis: equal lengths, or one of them 1,
   otherwise ValueError.  (_validate_bounds, 37-43, is never called.) *)
Definition bcast_row (bs : bounds) (x : row) : option (bounds * row) :=
  if Nat.eqb (length bs) (length x) then Some (bs, x)
  else match bs, x with
       | [b], _ => Some (repeat b (length x), x)
       | _, [xi] => Some (bs, repeat xi (length bs))
       | _, _ => None
       end.
Definition match_call (m : matching) (X : matrix) : res (list bool) :=
  rmap (fun x => match bcast_row (bnd m) x with
                 | Some (bs, x') => Ok (row_matches (mt m) bs x')
                 | None => Raise ValueError
                 end) X.

(* widths: OrderedBound.volume_ 61-64, UnorderedBound.volume_ 98-102,
   CenterSpread.calculate_widths 145-151, MinPercentage.calculate_widths 189-193 *)
Definition width (t : mtype) (b : Q * Q) : Q :=
  match t with
  | OrderedBound => snd b - fst b
  | UnorderedBound => qmax (snd b - fst b) (- (snd b - fst b))
  | CenterSpread => qclip (-(1)) 1 (fst b + snd b) - qclip (-(1)) 1 (fst b - snd b)
  | MinPercentage => (fst b + snd b * (1 - (-(1)))) - fst b
  end.
(* volume_: np.prod of the widths, 61-64, 98-102, 154-156, 196-198 *)
Definition volume (m : matching) : Q := qprod (map (width (mt m)) (bnd m)).

(* clip(bounds): OrderedBound 69-71 clips both limits per dimension; UnorderedBound 107-108 computes
   a clipped copy and drops it; CenterSpread 161-163 and MinPercentage 203-205 ignore the argument.
   The bounds and the condition have the same number of dimensions (a hypothesis of every theorem);
   numpy's error for different ones is not modelled. *)
Definition clip_pair (t : mtype) (lh b : Q * Q) : Q * Q :=
  match t with
  | OrderedBound => (qclip (fst lh) (snd lh) (fst b), qclip (fst lh) (snd lh) (snd b))
  | UnorderedBound => b
  | CenterSpread => (qclip (-(1)) 1 (fst b), qclip 0 2 (snd b))
  | MinPercentage => (qclip (-(1)) 1 (fst b), qclip 0 1 (snd b))
  end.
Definition clip (m : matching) (space : bounds) : matching :=
  mkMatching (mt m) (map2 (clip_pair (mt m)) space (bnd m)).

(* min_range: the encodings that treat each dimension on its own.
   OrderedBound 73-78, CenterSpread 165-169, MinPercentage 207-213 *)
Definition min_range_pair (t : mtype) (mr : Q) (b : Q * Q) : Q * Q :=
  if qlt (width t b) mr then
    match t with
    | OrderedBound => (fst b - mr / 2, snd b + mr / 2)
    | CenterSpread => (fst b, snd b + mr / 2)
    | MinPercentage => (fst b - mr / 2, snd b + mr)
    | UnorderedBound => b  (* not used, see below *)
    end
  else b.

(* UnorderedBound.min_range 110-125.  argwhere on the 1-d condition yields the invalid dimensions as an
   (m,1) array; diff[invalid] is (m,1); argwhere of that yields rows [j, 0] where j counts within the
   invalid ones.  Indexing bounds with it touches the rows {j} and row 0, once each (buffered +=). *)
Fixpoint positions_from {A} (p : A -> bool) (i : nat) (l : list A) : list nat :=
  match l with
  | [] => []
  | x :: l' => if p x then i :: positions_from p (S i) l' else positions_from p (S i) l'
  end.
Definition argwhere {A} (p : A -> bool) (l : list A) : list nat := positions_from p 0%nat l.
Definition mem (i : nat) (l : list nat) : bool := existsb (Nat.eqb i) l.
Definition add_rows (idx : list nat) (d0 d1 : Q) (bs : bounds) : bounds :=
  mapi (fun i b => if mem i idx then (fst b + d0, snd b + d1) else b) bs.
Definition min_range_unordered (mr : Q) (bs : bounds) : bounds :=
  let diff := map (fun b => snd b - fst b) bs in
  if qlt 0 mr then
    let invalid := filter (fun d => qlt d mr && qlt (- d) mr) diff in   (* diff[invalid_indices] *)
    let jl := argwhere (fun d => qlt (- d) d) invalid in
    let jr := argwhere (fun d => qle d (- d)) invalid in
    let rows j := match j with [] => [] | _ => 0%nat :: j end in
    let bs1 := add_rows (rows jl) (mr / 2) (- (mr / 2)) bs in
    add_rows (rows jr) (- (mr / 2)) (mr / 2) bs1
  else bs.

Definition min_range (m : matching) (mr : Q) : matching :=
  match mt m with
  | UnorderedBound => mkMatching UnorderedBound (min_range_unordered mr (bnd m))
  | t => mkMatching t (if qlt 0 mr then map (min_range_pair t mr) (bnd m) else bnd m)
  end.

(* suprb/optimizer/rule/constraint.py:34-35, 45-47, 56-58: MinRange, Clip and CombinedConstraint
   change rule.match in place and return the rule *)
Inductive constraint : Type :=
| Clip (space : bounds)
| MinRange (mr : Q)
| CombinedConstraint (mr : Q) (space : bounds).
Definition constrain (c : constraint) (m : matching) : matching :=
  match c with
  | Clip space => clip m space
  | MinRange mr => min_range m mr
  | CombinedConstraint mr space => clip (min_range m mr) space
  end.
