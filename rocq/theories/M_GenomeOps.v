(* Operators on solutions: suprb/optimizer/solution/ga/{selection,crossover,mutation}.py.
   The copies in saga1, saga2, saga3 and sas differ only where noted. *)
From Verif Require Import PyNum PyList PyMon PyRng PyStat M_Matching M_Rule M_Mixing M_Solution.

(* ----- selection.py ----- *)
Inductive selection : Type := SelRandom | SelRoulette | SelLinearRank | SelTournament (k : nat).

(* all values finite, or None *)
Fixpoint finites (l : list num) : option (list Q) :=
  match l with
  | [] => Some []
  | Fin q :: l' => match finites l' with Some qs => Some (q :: qs) | None => None end
  | _ => None
  end.
(* choice(l, p=w): numpy rejects weights that are not finite *)
Definition choices_num {A} (l : list A) (k : nat) (w : list num) (g : rng) : res (list A) * rng :=
  match finites w with Some qs => choices_p l k qs g | None => (Raise ValueError, g) end.

(* fitness.argsort(): positions in ascending order of value.  numpy's default sort may order equal values
   differently; here they keep their order. *)
Definition argsort {A} (lt : A -> A -> bool) (l : list A) : list nat :=
  map snd (PyList.sort (fun a b => lt (fst a) (fst b)) (combine l (seq 0 (length l)))).
(* 40 argsort().argsort() + 1 *)
Definition ranks (fs : list num) : list nat := map S (argsort Nat.ltb (argsort nlt fs)).
(* 41 ranks / sum(ranks) *)
Definition rank_weights (fs : list num) : list Q :=
  let rs := map qofnat (ranks fs) in map (fun r => r / qsum rs) rs.
(* 27-31 *)
Definition roulette_weights (fs : list num) : option (list num) :=
  let total := nsum fs in if neqb total (Fin 0) then None else Some (map (fun f => ndiv f total) fs).

Section Ops.
Variable K : skind.

(* 16-52 __call__ *)
Definition select (k : selection) (pop : list nat) (n : nat) : HSt K (list nat) :=
  match k with
  | SelRandom => rnd (choices pop n)
  | SelRoulette =>
      let* fs := fitnesses pop in
      match roulette_weights fs with
      | Some w => rnd (choices_num pop n w)
      | None => rnd (choices pop n)
      end
  | SelLinearRank => let* fs := fitnesses pop in rnd (choices_p pop n (rank_weights fs))
  | SelTournament k => mmap (fun _ => let* drawn := rnd (choices pop k) in fittest drawn) (seq 0 n)
  end.

(* ----- crossover.py ----- *)
Inductive xop : Type := NPoint (n : nat) | Uniform.

(* 34-36 _single_point *)
Definition single_point (a b i : nat) : HSt K nat :=
  let* ga := genome a in let* gb := genome b in clone_with a (firstn i ga ++ skipn i gb).
(* 40-42; both: the second parent is replaced, too (ga); the saga and sas copies leave it (saga1/crossover.py:40-41) *)
Fixpoint npoint (both : bool) (cuts : list nat) (a b : nat) : HSt K nat :=
  match cuts with
  | [] => ret a
  | i :: cuts' =>
      let* a' := single_point a b i in
      let* b' := if both then single_point b a' i else ret b in
      npoint both cuts' a' b'
  end.
(* 51-53: bits of A where the draw is <= 0.5, of B elsewhere *)
Definition mix_bits (us : list Q) (ga gb : list bool) : list bool :=
  map2 (fun u ab => if qle u (1 # 2) then fst ab else snd ab) us (combine ga gb).
(* 38-43, 49-55 _crossover; Uniform indexes B's genome with a mask of A's length *)
Definition recombine (both : bool) (x : xop) (a b : nat) : HSt K nat :=
  match x with
  | NPoint n =>
      let* ga := genome a in
      let* cuts := rnd (sample (seq 0 (length ga)) (Nat.min n (length ga))) in
      npoint both cuts a b
  | Uniform =>
      let* ga := genome a in let* us := rnd1 (randoms (length ga)) in
      let* gb := genome b in
      if Nat.eqb (length gb) (length ga) then clone_with a (mix_bits us ga gb) else raise IndexError
  end.
(* 15-20 __call__: the primary parent itself if no crossover happens *)
Definition crossover (both : bool) (x : xop) (rate : num) (a b : nat) : HSt K nat :=
  let* u := rnd1 random in if nlt (Fin u) rate then recombine both x a b else ret a.

(* ----- mutation.py:23-26 BitFlips ----- *)
Definition flip_bits (rate : num) (us : list Q) (bits : list bool) : list bool :=
  map2 (fun u b => xorb b (nlt (Fin u) rate)) us bits.
Definition bit_flips (rate : num) (r : nat) : HSt K nat :=
  let* bits := genome r in let* us := rnd1 (randoms (length bits)) in clone_with r (flip_bits rate us bits).

(* ga/base.py:82-95: consecutive pairs (a last single parent is dropped), two children each *)
Fixpoint pairs {A} (l : list A) : list (A * A) :=
  match l with a :: b :: l' => (a, b) :: pairs l' | _ => [] end.
Definition offspring (cross : nat -> nat -> HSt K nat) (parents : list nat) : HSt K (list nat) :=
  let* cs := mmap (fun p => let* c := cross (fst p) (snd p) in let* d := cross (snd p) (fst p) in ret [c; d])
                  (pairs parents) in
  ret (concat cs).

Fixpoint iterate {A} (k : nat) (f : A -> HSt K A) (x : A) : HSt K A :=
  match k with O => ret x | S k' => let* x' := f x in iterate k' f x' end.
End Ops.
Arguments select {K}. Arguments single_point {K}. Arguments npoint {K}. Arguments recombine {K}. Arguments crossover {K}.
Arguments bit_flips {K}. Arguments offspring {K}. Arguments iterate {K A}.
