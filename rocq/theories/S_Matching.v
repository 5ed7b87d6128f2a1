(* Specification vocabulary for conditions, written from the docstrings of the encodings. *)
From Coq Require Import Qminmax.
From Verif Require Import PyNum M_Matching.

(* the closed interval an encoded pair stands for *)
Definition lo (t : mtype) (b : Q * Q) : Q :=
  let '(p, q) := b in
  match t with
  | OrderedBound => p                 (* l *)
  | UnorderedBound => Qmin p q
  | CenterSpread => p - q             (* c - s *)
  | MinPercentage => p                (* l *)
  end.
Definition hi (t : mtype) (b : Q * Q) : Q :=
  let '(p, q) := b in
  match t with
  | OrderedBound => q                 (* u *)
  | UnorderedBound => Qmax p q
  | CenterSpread => p + q             (* c + s *)
  | MinPercentage => p + q * (1 - p)  (* l + p (max - l), max = 1 *)
  end.

(* the sample x lies in the box of the condition *)
Definition covers (m : matching) (x : row) : Prop :=
  Forall2 (fun b xi => lo (mt m) b <= xi /\ xi <= hi (mt m) b) (bnd m) x.

(* the sample lies in the feature space given by (low, high) pairs *)
Definition in_space (space : bounds) (x : row) : Prop :=
  Forall2 (fun lh xi => fst lh <= xi /\ xi <= snd lh) space x.
Definition proper_space (space : bounds) : Prop := Forall (fun lh => fst lh <= snd lh) space.

(* the box has lower <= upper everywhere (what OrderedBound promises) *)
Definition proper (m : matching) : Prop := Forall (fun b => lo (mt m) b <= hi (mt m) b) (bnd m).
(* the box lies inside the feature space *)
Definition inside (space : bounds) (m : matching) : Prop :=
  Forall2 (fun lh b => fst lh <= lo (mt m) b /\ hi (mt m) b <= snd lh) space (bnd m).
(* the length of the interval in each dimension *)
Definition lengths (m : matching) : list Q := map (fun b => hi (mt m) b - lo (mt m) b) (bnd m).
Definition wide (mr : Q) (m : matching) : Prop := Forall (fun b => mr <= hi (mt m) b - lo (mt m) b) (bnd m).
Fixpoint product (l : list Q) : Q := match l with [] => 1 | x :: l' => x * product l' end.

(* pointwise equality of two conditions (as rationals) *)
Definition same_bounds (a b : bounds) : Prop := Forall2 (fun x y => fst x == fst y /\ snd x == snd y) a b.
