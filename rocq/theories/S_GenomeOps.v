(* Specification vocabulary for the operators on genomes. *)
From Coq Require Import Permutation.
From Verif Require Import PyNum PyList PyMon PyRng M_Matching M_Rule M_Mixing M_Solution S_Solution.

(* child c takes every bit from one of its parents a, b, at the same position *)
Definition recombined (a b c : list bool) : Prop :=
  length c = length a /\
  forall i x, nth_error c i = Some x -> nth_error a i = Some x \/ nth_error b i = Some x.
(* bits up to position m from a, from there on from b *)
Definition cut_at (m : nat) (a b : list bool) : list bool := firstn m a ++ skipn m b.
(* the pieces between the cut points alternate between a and b, beginning with a *)
Definition alternates (cuts : list nat) (a b c : list bool) : Prop :=
  length c = length a /\
  forall i, (i < length a)%nat ->
    nth_error c i = nth_error (if Nat.even (length (filter (fun k => Nat.leb k i) cuts)) then a else b) i.
(* c differs from a exactly where the draw is below the rate *)
Definition flipped (rate : Q) (us : list Q) (a c : list bool) : Prop :=
  length c = length a /\ length us = length a /\
  forall i x y u, nth_error a i = Some x -> nth_error c i = Some y -> nth_error us i = Some u ->
    (u < rate -> y = negb x) /\ (rate <= u -> y = x).

(* a weighted draw u in [0,1) falls into the i-th of consecutive intervals of lengths w *)
Definition picks (w : list Q) (u : Q) (i : nat) : Prop :=
  (i < length w)%nat /\ qsum (firstn i w) <= u < qsum (firstn (S i) w).
(* the groups drawn for n successive tournaments of k *)
Fixpoint rounds {A} (n k : nat) (l : list A) (g : rng) : list (list A) :=
  match n with
  | O => []
  | S n' => match choices l k g with (Ok d, g') => d :: rounds n' k l g' | (Raise _, _) => [] end
  end.
(* w is of its group, and at least as fit as everyone in it *)
Definition tournament_won {K} (s : hst K) (group : list nat) (w : nat) : Prop :=
  In w group /\ exists f, has_fit s w f /\ forall q f', In q group -> has_fit s q f' -> nle f' f = true.
(* el are the k fittest members of pop (all, if there are fewer) *)
Definition fittest_k {K} (s : hst K) (k : nat) (pop el : list nat) : Prop :=
  length el = Nat.min k (length pop) /\
  exists rest, Permutation pop (el ++ rest) /\
    forall a b fa fb, In a el -> In b rest -> has_fit s a fa -> has_fit s b fb -> nle fb fa = true.
