(* C46: flatten. *)
From Verif Require Import PyNum PyList PyMon M_Utils S_Utils L_Utils.

(* Every element, from left to right, each position once; a zero-dimensional array stops it with a TypeError, after everything left of it. *)
Theorem C46_flatten_in_order : forall (A : Type) (l : list (obj A)),
  exists paths, reads (Iter l) paths (fst (flatten (Iter l))) /\
    match snd (flatten (Iter l)) with
    | Ok _ => (forall p e, at_path p (Iter l) = Some e -> element e -> In p paths) /\
              (forall p, at_path p (Iter l) <> Some ZeroDim)
    | Raise x => x = TypeError /\
        exists q, at_path q (Iter l) = Some ZeroDim /\ (forall p, In p paths -> left_of p q) /\
          (forall p e, at_path p (Iter l) = Some e -> element e -> left_of p q -> In p paths) /\
          (forall p, at_path p (Iter l) = Some ZeroDim -> p = q \/ left_of q p)
    end.
Proof. intros A l. exact (flatten_good l). Qed.
Print Assumptions C46_flatten_in_order.

(* how the genetic algorithms use it: pairs of children become one list *)
Theorem C46_flatten_pairs : forall (A : Type) (ll : list (list A)),
  flatten (Iter (map (fun l => Iter (map Leaf l)) ll)) = (map Leaf (concat ll), Ok tt).
Proof. intros A ll. exact (flatten_lists ll). Qed.
Print Assumptions C46_flatten_pairs.

Example flatten_nested :
  flatten (Iter [Leaf 1; Iter [Str 2; Iter []; Iter [Leaf 3; Iter [Leaf 4]]]; Str 5])%nat =
  ([Leaf 1; Str 2; Leaf 3; Leaf 4; Str 5], Ok tt)%nat.
Proof. reflexivity. Qed.
Example flatten_zero_dim :
  flatten (Iter [Leaf 1; Iter [Str 2; ZeroDim; Leaf 3]; Str 5])%nat = ([Leaf 1; Str 2], Raise TypeError)%nat.
Proof. reflexivity. Qed.
