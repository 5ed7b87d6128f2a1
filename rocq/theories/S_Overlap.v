(* Specification vocabulary for the overlap of rules and the pheromones of the complete graph. *)
From Coq Require Import Qminmax.
From Verif Require Import PyNum PyList PyMon M_Matching S_Matching M_Rule M_Aco.

(* the entry of the pheromone matrix for the rules i and j *)
Definition cell (p : list (list (num * num))) (i j : nat) : option (num * num) :=
  match nth_error p i with Some r => nth_error r j | None => None end.

(* the box of m has a positive length in each dimension *)
Definition solid (m : matching) : Prop := Forall (fun b => lo (mt m) b < hi (mt m) b) (bnd m).
Definition same_dims (a b : matching) : Prop := length (bnd a) = length (bnd b).
(* every sample matched by a is matched by b *)
Definition lies_within (a b : matching) : Prop := forall x, covers a x -> covers b x.
(* m matches what both match *)
Definition common (m a b : matching) : Prop := forall x, covers m x <-> covers a x /\ covers b x.
Definition box_volume (m : matching) : Q := product (lengths m).
(* the ants weigh leaving the rule out by 1 + s and selecting it by 1 - s *)
Definition share {L} (a b : rule L) (s : Q) : Prop :=
  exists x y, bounds_overlap a b = (Fin x, Fin y) /\ x == 1 + s /\ y == 1 - s.
(* ordered boxes with the same number of dimensions *)
Definition ordered {L} (a : rule L) : Prop := mt (cond a) = OrderedBound /\ solid (cond a).
(* numpy's square root and powers: 0 for 0, positive for positive numbers, increasing (exponents are positive) *)
Record root_ok (A : amath) (b : bparams) : Prop := mkRoot {
  ro_zero : forall x, x == 0 -> exists y, m_sqrt A (Fin x) = Fin y /\ y == 0;
  ro_pos : forall x, 0 < x -> exists y, m_sqrt A (Fin x) = Fin y /\ 0 < y;
  ro_mono : forall x x' y y', 0 <= x <= x' -> m_sqrt A (Fin x) = Fin y -> m_sqrt A (Fin x') = Fin y' -> y <= y';
  po_zero : forall x, x == 0 -> exists y, m_pow A (Fin x) (b_beta b) = Fin y /\ y == 0;
  po_pos : forall x a, 0 < x -> exists y, m_pow A (Fin x) a = Fin y /\ 0 < y;
  po_mono : forall x x' y y', 0 <= x <= x' -> m_pow A (Fin x) (b_beta b) = Fin y -> m_pow A (Fin x') (b_beta b) = Fin y' -> y <= y' }.
(* the selected rules a further rule is compared with: all of them, or the last one *)
Definition looked_at (partial : bool) (route : list nat) : list nat := if partial then route else [last route 0%nat].
(* i and j are rules of the pool, and one of the two lies within the other *)
Definition nested {L} (pool : list (rule L)) (j i : nat) : Prop := exists ri rj,
  nth_error pool i = Some ri /\ nth_error pool j = Some rj /\ (lies_within (cond ri) (cond rj) \/ lies_within (cond rj) (cond ri)).
(* ordered rules with the same number of dimensions *)
Definition boxes {L} (pool : list (rule L)) : Prop :=
  Forall ordered pool /\ forall a b, In a pool -> In b pool -> same_dims (cond a) (cond b).
