(* Self-adaptive solution composition with ageing: suprb/optimizer/solution/sas. *)
From Verif Require Import PyNum PyList PyMon PyRng PyStat M_Matching M_Rule M_Mixing M_Solution M_Composition M_GenomeOps.

(* solution_extension.py:32-41; clone 52-69 starts again with age 3 *)
Definition sas_sol : skind := mkKind Z 3%Z (fun _ => 3%Z).
Record sascfg : Type := mkSas { sa_iter : nat; sa_init : nat; sa_x : xop; sa_xrate : Q; sa_mrate : Q }.

(* selection.py:36-44: how much an individual ages *)
Definition ageing_by (med top : num) (full : bool) (f : num) : Z :=
  ((if nlt med f then 0 else -2) + (if full && nlt f top then -2 else 0))%Z.
(* selection.py:26-45 Ageing.__call__, top_cutoff_mult = 5 *)
Definition ageing (initial : nat) (pop : list nat) : HSt sas_sol (list nat) :=
  let* fs := fitnesses pop in
  let med := nmedian fs in
  let top_n := (initial * 5)%nat in
  let* ranked := by_fitness_desc pop in
  let* lowest := lift (of_option IndexError (nth_error (rev (firstn top_n ranked)) 0)) in
  let* top := fitness lowest in
  miter (fun r => let* age := get_ext (K := sas_sol) r in let* f := fitness r in
                  set_ext (K := sas_sol) r (age + ageing_by med top (Nat.leb top_n (length pop)) f)%Z) pop ;;
  let* keep := mmap (fun r => let* age := get_ext (K := sas_sol) r in ret (if Z.ltb 0 age then [r] else [])) pop in
  ret (concat keep).

(* base.py:74-108 one generation; population_size becomes the number of parents *)
Definition sas_step {L} (c : sascfg) (E : env L) (st : list nat * nat) : HSt sas_sol (list nat * nat) :=
  let* parents := ageing (sa_init c) (fst st) in
  let* children := offspring (crossover false (sa_x c) (Fin (sa_xrate c))) parents in
  let* mutated := mmap (bit_flips (Fin (sa_mrate c))) children in
  let* pop' := fit_all E (parents ++ mutated) in
  ret (pop', length parents).
(* base.py:71-108 _optimize *)
Definition sas_run (c : sascfg) L (E : env L) (ini : sinit) (pop : list nat) (size : nat) : HSt sas_sol (list nat * nat) :=
  let* pop := fit_all E pop in iterate (sa_iter c) (sas_step c E) (pop, size).
Definition sas (c : sascfg) : optimizer sas_sol := mkOpt sas_sol nat (fun size => size) (sas_run c).
