(* Solutions as objects: suprb/solution/base.py, suprb/solution/initialization.py.
   A solution holds a reference to its genome array; arrays and solutions live in two heaps, addresses are
   positions in allocation order.  All solutions share the one pool list, so the pool is part of the environment. *)
From Verif Require Import PyNum PyList PyMon PyRng M_Matching M_Rule M_Mixing.

(* Subclasses of Solution carry further attributes: their initial value, and what clone() gives the copy
   (saga3/solution_extension.py, sas/solution_extension.py). *)
Record skind : Type := mkKind { ext : Type; ext0 : ext; ext_copy : ext -> ext }.
Definition plain : skind := mkKind unit tt (fun x => x).

(* what all solutions of one composition step have in common: pool, data, mixing model, fitness function *)
Record env (L : learner) : Type := mkEnv {
  epool : list (rule L);
  eX : matrix;
  ey : targets;
  emix : mixing;
  efit : Q -> nat -> nat -> num
}.
Arguments mkEnv {L}. Arguments epool {L}. Arguments eX {L}. Arguments ey {L}. Arguments emix {L}. Arguments efit {L}.

Section Solution.
Variable K : skind.

(* base.py:42-52; gref: the array self.genome refers to; att: error_, complexity_, input_size_, fitness_, is_fitted_ *)
Record sol : Type := mkSol { gref : nat; satt : option satts; sext : ext K }.
Record hst : Type := mkH { garr : list (list bool); sols : list sol; hrng : rng }.
Definition HSt (A : Type) := St hst A.

(* ----- primitive heap operations; a dangling address is outside the model ----- *)
Definition alloc_arr (bits : list bool) : HSt nat :=
  fun s => (Ok (length (garr s)), mkH (garr s ++ [bits]) (sols s) (hrng s)).
Definition alloc_sol (o : sol) : HSt nat :=
  fun s => (Ok (length (sols s)), mkH (garr s) (sols s ++ [o]) (hrng s)).
Definition get_sol (r : nat) : HSt sol := fun s => (of_option Dangling (nth_error (sols s) r), s).
Definition put_sol (r : nat) (o : sol) : HSt unit := fun s => (Ok tt, mkH (garr s) (update (sols s) r o) (hrng s)).
Definition get_arr (a : nat) : HSt (list bool) := fun s => (of_option Dangling (nth_error (garr s) a), s).
Definition put_arr (a : nat) (bits : list bool) : HSt unit := fun s => (Ok tt, mkH (update (garr s) a bits) (sols s) (hrng s)).
Definition rnd {A} (f : rng -> res A * rng) : HSt A :=
  fun s => let '(r, g) := f (hrng s) in (r, mkH (garr s) (sols s) g).
Definition rnd1 {A} (f : rng -> A * rng) : HSt A := rnd (fun g => let '(a, g') := f g in (Ok a, g')).

(* solution.genome (read) *)
Definition genome (r : nat) : HSt (list bool) := let* o := get_sol r in get_arr (gref o).
(* solution.genome = <new array> *)
Definition set_genome (r : nat) (bits : list bool) : HSt unit :=
  let* o := get_sol r in let* a := alloc_arr bits in put_sol r (mkSol a (satt o) (sext o)).
(* solution.genome[...] = ...: writes into the array *)
Definition write_genome (r : nat) (f : list bool -> list bool) : HSt unit :=
  let* o := get_sol r in let* bits := get_arr (gref o) in put_arr (gref o) (f bits).
(* solution.fitness_ *)
Definition get_satt (r : nat) : HSt satts := let* o := get_sol r in lift (of_option AttributeError (satt o)).
Definition fitness (r : nat) : HSt num := let* a := get_satt r in ret (sfitness a).
Definition get_ext (r : nat) : HSt (ext K) := let* o := get_sol r in ret (sext o).
Definition set_ext (r : nat) (x : ext K) : HSt unit := let* o := get_sol r in put_sol r (mkSol (gref o) (satt o) x).

(* Solution(genome=<new array>, ...) *)
Definition new_sol (bits : list bool) : HSt nat := let* a := alloc_arr bits in alloc_sol (mkSol a None (ext0 K)).

(* base.py:81-98 clone(): genome.copy(), measured values copied (AttributeError if there are none) *)
Definition clone (r : nat) : HSt nat :=
  let* bits := genome r in let* a := alloc_arr bits in
  let* at_ := get_satt r in let* x := get_ext r in
  alloc_sol (mkSol a (Some at_) (ext_copy K x)).
(* clone(genome=<new array>): measured values not copied *)
Definition clone_with (r : nat) (bits : list bool) : HSt nat :=
  let* x := get_ext r in let* a := alloc_arr bits in alloc_sol (mkSol a None (ext_copy K x)).

(* base.py:54-61 fit; returns self.  Simplification: a random filter of the mixing model reads on from the optimizer's generator,
   not from one of its own (mixing_model.py:11). *)
Definition fit {L} (E : env L) (r : nat) : HSt nat :=
  let* bits := genome r in
  let* a := rnd (sol_fit L (emix E) (efit E) bits (epool E) (eX E) (ey E)) in
  let* o := get_sol r in put_sol r (mkSol (gref o) (Some a) (sext o)) ;; ret r.
(* optimizer/solution/base.py:141-142 fit_population, archive.py:20-21 refit *)
Definition fit_all {L} (E : env L) (rs : list nat) : HSt (list nat) := mmap (fit E) rs.

(* ----- initialization.py ----- *)
Inductive sinit : Type := ZeroInit | RandomInit (p : Q).
(* 19-22 random(n, p): bits drawn <= p *)
Definition random_bits (n : nat) (p : Q) : HSt (list bool) :=
  let* us := rnd1 (randoms n) in ret (map (fun u => qle u p) us).
(* 46-52, 71-77 __call__ (SagaRandomInit, SasRandomInit: the same with the subclass) *)
Definition init_call (i : sinit) (n : nat) : HSt nat :=
  match i with
  | ZeroInit => new_sol (repeat false n)
  | RandomInit p => let* bits := random_bits n p in new_sol bits
  end.
(* 54-56, 79-84 pad: a longer new array; negative sizes are a ValueError *)
Definition pad_zero (n : nat) (r : nat) : HSt unit :=
  let* bits := genome r in
  if Nat.ltb n (length bits) then raise ValueError
  else set_genome r (bits ++ repeat false (n - length bits)).
Definition init_pad (i : sinit) (n : nat) (r : nat) : HSt nat :=
  match i with
  | ZeroInit => pad_zero n r ;; ret r
  | RandomInit p =>
      let* bits := genome r in
      if Nat.ltb n (length bits) then raise ValueError
      else let* new := random_bits (n - length bits) p in set_genome r (bits ++ new) ;; ret r
  end.

(* key=lambda i: i.fitness_ is evaluated for every element *)
Definition keyed (rs : list nat) : HSt (list (num * nat)) :=
  mmap (fun r => let* f := fitness r in ret (f, r)) rs.
Definition key_lt (a b : num * nat) : bool := nlt (fst a) (fst b).
(* max(rs, key=fitness_), sorted(rs, key=fitness_, reverse=True) *)
Definition fittest (rs : list nat) : HSt nat :=
  let* ks := keyed rs in let* k := lift (of_option ValueError (pymax key_lt ks)) in ret (snd k).
Definition by_fitness_desc (rs : list nat) : HSt (list nat) :=
  let* ks := keyed rs in ret (map snd (sort_desc key_lt ks)).
Definition fitnesses (rs : list nat) : HSt (list num) := mmap fitness rs.
End Solution.

Arguments mkSol {K}. Arguments gref {K}. Arguments satt {K}. Arguments sext {K}.
Arguments mkH {K}. Arguments garr {K}. Arguments sols {K}. Arguments hrng {K}.
Arguments alloc_arr {K}. Arguments alloc_sol {K}. Arguments get_sol {K}. Arguments put_sol {K}. Arguments get_arr {K}.
Arguments put_arr {K}. Arguments rnd {K A}. Arguments rnd1 {K A}. Arguments genome {K}. Arguments set_genome {K}.
Arguments write_genome {K}. Arguments get_satt {K}. Arguments fitness {K}. Arguments get_ext {K}. Arguments set_ext {K}.
Arguments new_sol {K}. Arguments clone {K}. Arguments clone_with {K}. Arguments fit {K L}. Arguments fit_all {K L}.
Arguments random_bits {K}. Arguments init_call {K}. Arguments init_pad {K}. Arguments pad_zero {K}. Arguments keyed {K}.
Arguments fittest {K}. Arguments by_fitness_desc {K}. Arguments fitnesses {K}.
