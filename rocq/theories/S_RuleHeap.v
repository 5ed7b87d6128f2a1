(* Specification vocabulary for conditions held in arrays. *)
From Verif Require Import PyNum M_Matching M_RuleHeap.

(* old arrays are untouched *)
Definition keeps (h h' : bheap) : Prop := forall i bs, nth_error h i = Some bs -> nth_error h' i = Some bs.
(* the condition a reference denotes *)
Definition denotes (h : bheap) (r : mref) (m : matching) : Prop :=
  rt r = mt m /\ nth_error h (ra r) = Some (bnd m).
(* the reference's array is not among the first n allocated *)
Definition fresh_from (n : nat) (r : mref) : Prop := (n <= ra r)%nat.
