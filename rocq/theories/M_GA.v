(* Genetic algorithm and random search for solution composition:
   suprb/optimizer/solution/ga/base.py, suprb/optimizer/solution/rs/base.py. *)
From Verif Require Import PyNum PyList PyMon PyRng M_Matching M_Rule M_Mixing M_Solution M_Composition M_GenomeOps.

(* int(population_size * elitist_ratio), for a non-negative ratio *)
Definition n_elitists (size : nat) (ratio : Q) : nat := Z.to_nat (Qfloor (qofnat size * ratio)).

Record gcfg : Type := mkG {
  g_iter : nat; g_size : nat; g_ratio : Q; g_sel : selection; g_x : xop; g_xrate : Q; g_mrate : Q }.

(* 72-107: one generation *)
Definition ga_step {K L} (c : gcfg) (E : env L) (pop : list nat) : HSt K (list nat) :=
  let* ranked := by_fitness_desc pop in
  let elitists := firstn (n_elitists (g_size c) (g_ratio c)) ranked in
  let* parents := select (g_sel c) pop (g_size c) in
  let* children := offspring (crossover true (g_x c) (Fin (g_xrate c))) parents in
  let* children := if Nat.odd (g_size c)
                   then let* last := lift (of_option IndexError (nth_error (rev parents) 0)) in ret (children ++ [last])
                   else ret children in
  let* mutated := mmap (bit_flips (Fin (g_mrate c))) children in
  fit_all E (elitists ++ mutated).

(* 66-107 _optimize *)
Definition ga_run {K} (c : gcfg) L (E : env L) (ini : sinit) (pop : list nat) (_ : unit) : HSt K (list nat * unit) :=
  let* pop := fit_all E pop in
  let* pop' := iterate (g_iter c) (ga_step c E) pop in ret (pop', tt).
Definition ga (c : gcfg) : optimizer plain := mkOpt plain unit (fun _ => g_size c) (ga_run c).

(* rs/base.py:50-58 _optimize *)
Definition rs_run {K} (n_iter size : nat) L (E : env L) (ini : sinit) (pop : list nat) (_ : unit) : HSt K (list nat * unit) :=
  fit_all E pop ;;
  let* new := times size (let* sols := times n_iter (let* r := init_call ini (length (epool E)) in fit E r) in fittest sols) in
  ret (new, tt).
Definition rs (n_iter size : nat) : optimizer plain := mkOpt plain unit (fun _ => size) (rs_run n_iter size).
