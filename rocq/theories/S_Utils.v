(* Flattening, described by positions in the nesting. *)
From Verif Require Import PyNum PyList PyMon M_Utils.
From Coq Require Import Sorting.Sorted.

(* the object at a path of indices *)
Fixpoint at_path {A} (p : list nat) (o : obj A) : option (obj A) :=
  match p with
  | [] => Some o
  | i :: p' => match o with
               | Iter l => match nth_error l i with Some e => at_path p' e | None => None end
               | _ => None
               end
  end.
Definition element {A} (o : obj A) : Prop := match o with Leaf _ | Str _ => True | _ => False end.
(* left of: at the first index in which two paths differ the left one is smaller *)
Fixpoint left_of (p q : list nat) : Prop :=
  match p, q with i :: p', j :: q' => (i < j)%nat \/ (i = j /\ left_of p' q') | _, _ => False end.

(* out lists, from left to right and once each, elements of o *)
Definition reads {A} (o : obj A) (paths : list (list nat)) (out : list (obj A)) : Prop :=
  StronglySorted left_of paths /\ Forall2 (fun p e => at_path p o = Some e /\ element e) paths out.
