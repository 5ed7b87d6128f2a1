(* Particle swarm and grey wolves for solution composition: suprb/optimizer/solution/pso, suprb/optimizer/solution/gwo. *)
From Verif Require Import PyNum PyList PyMon PyRng PyStat M_Matching M_Rule M_Mixing M_Solution M_Composition M_GenomeOps M_Aco M_Abc.

(* ================= particle swarm ================= *)
(* movement.py:24-38, 81-94, 122-131: the three particle classes; classes without velocity or position leave them empty *)
Record particle : Type := mkPart {
  p_sol : nat; p_best : nat; p_pos : list num; p_bestpos : list num; p_vel : list num }.
Inductive movement : Type :=
| MSigmoid (b c vmax : Q)
| MSigmoidQuantum
| MBinaryQuantum (p_learning : Q) (n_attractors : nat).
(* Python min(a, b): b if b < a else a *)
Definition npymin (a b : num) : num := if nlt b a then b else a.
Definition nabs (a : num) : num := match a with Fin q => Fin (Qabs q) | NInf => PInf | x => x end.

Section Swarm.
Variable M : smath.
(* 63-67, 104-107, 175-176 init_particle *)
Definition start_position (bits : list bool) (us : list Q) : list num := map2 (fun b u => Fin ((bitq b + u) / 2)) bits us.
Definition init_particle (m : movement) (r : nat) : HSt plain particle :=
  let* bits := genome r in
  match m with
  | MSigmoid _ _ vmax =>
      let* us := rnd1 (randoms (length bits)) in
      let* qs := rnd1 (draws (length bits)) in
      let pos := start_position bits us in
      let* best := clone r in
      ret (mkPart r best pos pos (map (fun q => Fin (uniform_of (- vmax) vmax q)) qs))
  | MSigmoidQuantum =>
      let* us := rnd1 (randoms (length bits)) in
      let pos := start_position bits us in
      let* best := clone r in ret (mkPart r best pos pos [])
  | MBinaryQuantum _ _ => let* best := clone r in ret (mkPart r best [] [] [])
  end.

(* max(particles, key=...) *)
Definition best_by (key : particle -> nat) (ps : list particle) : HSt plain particle :=
  let* ks := mmap (fun p => let* f := fitness (key p) in ret (f, p)) ps in
  let* k := lift (of_option ValueError (pymax (fun a b => nlt (fst a) (fst b)) ks)) in ret (snd k).
Definition first_particle (ps : list particle) : HSt plain particle := lift (of_option IndexError (nth_error ps 0)).

(* 69-78 Sigmoid, one particle *)
Definition classic_move (b c vmax : Q) (a : num) (g : list num) (n : nat) (p : particle) : HSt plain particle :=
  let* u1 := rnd1 (randoms n) in
  let* u2 := rnd1 (randoms n) in
  let br := map2 (fun u bp => nmul (nmul (Fin b) (Fin u)) (nsub (fst bp) (snd bp))) u1 (combine (p_bestpos p) (p_pos p)) in
  let cr := map2 (fun u gp => nmul (nmul (Fin c) (Fin u)) (nsub (fst gp) (snd gp))) u2 (combine g (p_pos p)) in
  let vel := map2 (fun v bc => nclip (Fin (- vmax)) (Fin vmax) (nadd (nadd (nmul a v) (fst bc)) (snd bc))) (p_vel p) (combine br cr) in
  let pos := map2 (fun x v => nclip (Fin 0) (Fin 1) (nadd x v)) (p_pos p) vel in
  let* bits := sigmoid_binarize M pos in
  set_genome (p_sol p) bits ;;
  ret (mkPart (p_sol p) (p_best p) pos (p_bestpos p) vel).
(* np.mean([...], axis=0) *)
Definition column_means (n : nat) (rows : list (list num)) : list num :=
  map (fun i => nmean (map (fun r => nth i r NaN) rows)) (seq 0 n).
(* 109-119 SigmoidQuantum, one particle *)
Definition quantum_move (a : num) (g mean : list num) (n : nat) (p : particle) : HSt plain particle :=
  let* u1 := rnd1 (randoms n) in
  let* u2 := rnd1 (randoms n) in
  let* sign := rnd (choice1 [-(1); 1]) in
  let mixed_global := map2 (fun u xg => let l := bitq (qle u (1#2)) in
                                        nadd (nmul (Fin l) (fst xg)) (nmul (Fin (1 - l)) (snd xg))) u1 (combine (p_pos p) g) in
  let mixed_mean := map2 (fun u mx => nmul (nmul a (nabs (nsub (fst mx) (snd mx)))) (m_log M (ndiv (Fin 1) (Fin u)))) u2 (combine mean (p_pos p)) in
  let pos := map2 (fun x y => nclip (Fin 0) (Fin 1) (nadd x (nmul y (Fin sign)))) mixed_global mixed_mean in
  let* bits := sigmoid_binarize M pos in
  set_genome (p_sol p) bits ;;
  ret (mkPart (p_sol p) (p_best p) pos (p_bestpos p) []).

(* 134-146 binary_mean; half is half the genome length *)
Definition column_sum (xs : list (list bool)) (i : nat) : nat := count_true (map (fun x => nth i x false) xs).
Fixpoint fill_equal (half : nat) (sums : list nat) (qs : list Q) : list bool :=
  match sums with
  | [] => []
  | s :: sums' =>
      if Nat.eqb s half then
        match qs with q :: qs' => Nat.eqb (index_of 2 q) 1 :: fill_equal half sums' qs' | [] => false :: fill_equal half sums' [] end
      else Nat.leb half s :: fill_equal half sums' qs
  end.
Definition binary_mean (n : nat) (xs : list (list bool)) (g : rng) : list bool * rng :=
  let sums := map (column_sum xs) (seq 0 n) in
  let half := Nat.div n 2 in
  let '(qs, g') := draws (length (filter (Nat.eqb half) sums)) g in (fill_equal half sums qs, g').
(* 149-153 best_random_subset_particle *)
Definition best_random (ps : list particle) (n : nat) : HSt plain particle :=
  let* sub := rnd (choices ps n) in best_by p_best sub.
(* 156-159 hamming_distance *)
Definition hamming (a b : list bool) : nat := count_true (map2 xorb a b).
Definition overwrite (mask : list bool) (own new : list bool) : list bool :=
  map2 (fun (m : bool) on => if m then snd on else fst on) mask (combine own new).
(* 186-205: the attractor of one particle.  np.nonzero returns a tuple with one array, so the loop over the indices runs
   once, for all of them: one neighbour gives all bits. *)
Definition attractor (pl : Q) (n_attr n : nat) (ps : list particle) (p : particle) : HSt plain (list bool) :=
  let* own := genome (p_best p) in
  let* us := rnd1 (randoms n) in
  let* nb := best_random ps n_attr in
  let* gn := genome (p_best nb) in
  let genome1 := overwrite (map (fun u => qle u pl) us) own gn in
  if Nat.eqb (hamming genome1 own) 0 then
    let* q := rnd1 draw in
    let i := index_of n q in
    let* nb := best_random ps n_attr in
    let* gn := genome (p_best nb) in
    ret (update genome1 i (nth i gn false))
  else ret genome1.
(* 207-214 *)
Definition binary_move (a : num) (n : nat) (mean : list bool) (p : particle) (att : list bool) : HSt plain unit :=
  let* own := genome (p_sol p) in
  let* u := rnd1 random in
  if Qeq_bool u 0 then raise ZeroDivisionError else                              (* 1 / 0.0 with Python floats *)
  let b := nmul (nmul a (Fin (qofnat (hamming own mean)))) (m_log M (ndiv (Fin 1) (Fin u))) in
  let pr := npymin (ndiv b (Fin (qofnat n))) (Fin 1) in
  let* us := rnd1 (randoms n) in
  write_genome (p_sol p) (fun own => overwrite (map (fun u => nle (Fin u) pr) us) own att).

(* movement.__call__ *)
Definition move (m : movement) (a : num) (ps : list particle) : HSt plain (list particle) :=
  match m with
  | MSigmoid b c vmax =>
      let* g := best_by p_sol ps in
      let* p0 := first_particle ps in
      mmap (classic_move b c vmax a (p_pos g) (length (p_pos p0))) ps
  | MSigmoidQuantum =>
      let* g := best_by p_sol ps in
      let* p0 := first_particle ps in
      let n := length (p_pos p0) in
      mmap (quantum_move a (p_pos g) (column_means n (map p_pos ps)) n) ps
  | MBinaryQuantum pl n_attr =>
      let* gs := mmap (fun p => genome (p_sol p)) ps in
      let* p0 := first_particle ps in
      let* g0 := genome (p_sol p0) in
      let n := length g0 in
      let* mean := rnd1 (binary_mean n gs) in
      let* atts := mmap (attractor pl n_attr n ps) ps in
      miter (fun pa => binary_move a n mean (fst pa) (snd pa)) (combine ps atts) ;;
      ret ps
  end.
(* 35-38, 91-94, 129-131 update_best *)
Definition update_best (p : particle) : HSt plain particle :=
  let* f := fitness (p_sol p) in let* fb := fitness (p_best p) in
  if nlt fb f then let* best := clone (p_sol p) in ret (mkPart (p_sol p) best (p_pos p) (p_pos p) (p_vel p))
  else ret p.

Record pcfg : Type := mkP { ps_iter : nat; ps_size : nat; ps_amin : Q; ps_amax : Q; ps_move : movement }.
Variable c : pcfg.
(* base.py:79-89 one iteration *)
Definition swarm_step {L} (E : env L) (pop : list nat) (st : list particle * Q) : HSt plain (list particle * Q) :=
  let '(ps, a) := st in
  let* ps1 := move (ps_move c) (Fin a) ps in
  fit_all E pop ;;
  let* ps2 := mmap update_best ps1 in
  ret (ps2, a - (ps_amax c - ps_amin c) / qofnat (ps_iter c)).
(* base.py:67-89 _optimize; Python division by n_iter = 0 raises *)
Definition swarm_run L (E : env L) (ini : sinit) (pop : list nat) (_ : unit) : HSt plain (list nat * unit) :=
  let* pop := fit_all E pop in
  if Nat.eqb (ps_iter c) 0 then raise ZeroDivisionError else
  let* ps := mmap (init_particle (ps_move c)) pop in
  iterate (ps_iter c) (swarm_step E pop) (ps, ps_amax c) ;;
  ret (pop, tt).
Definition swarm : optimizer plain := mkOpt plain unit (fun _ => ps_size c) swarm_run.
End Swarm.

(* ================= grey wolves ================= *)
Inductive position : Type := WCrossover | WSigmoid.
Section Wolves.
Variable M : smath.
(* position.py:46-51 A and D *)
Definition wolf_A (a : Q) (us : list Q) : list Q := map (fun u => 2 * a * u - a) us.
Definition wolf_D (prey wolf : list bool) (us : list Q) : list Q :=
  map2 (fun u pw => Qabs (2 * u * bitq (fst pw) - bitq (snd pw))) us (combine prey wolf).
(* 24-43 binary_C, binary_B, binary_X *)
Definition binary_X (a : Q) (leader wolf : list bool) : HSt plain (list bool) :=
  let n := length leader in
  let* u1 := rnd1 (randoms n) in
  let* u2 := rnd1 (randoms n) in
  let* cpos := sigmoid_binarize M (map2 (fun x y => Fin (x * y)) (wolf_A a u1) (wolf_D leader wolf u2)) in
  let* u3 := rnd1 (randoms n) in
  let bpos := map2 (fun u cb => qle u (bitq cb)) u3 cpos in
  ret (map2 (fun l b => qle 1 (bitq l + bitq b)) leader bpos).
(* 54-61 X *)
Definition wolf_X (a : Q) (leader wolf : list bool) : HSt plain (list Q) :=
  let n := length leader in
  let* u1 := rnd1 (randoms n) in
  let* u2 := rnd1 (randoms n) in
  ret (map2 (fun l ad => Qabs (bitq l - fst ad * snd ad)) leader (combine (wolf_A a u1) (wolf_D leader wolf u2))).
(* 71-97 Crossover, one wolf; np.stack needs at least one leader, np.choose takes at most 32 *)
Definition wolf_crossover (a : Q) (leaders : list (list bool)) (wolf : list bool) : HSt plain (list bool) :=
  let* xs := mmap (fun l => binary_X a l wolf) leaders in
  if Nat.eqb (length xs) 0 || Nat.ltb 32 (length xs) then raise ValueError else
  let* qs := rnd1 (draws (length wolf)) in
  ret (mapi (fun i q => nth i (nth (index_of (length leaders) q) xs []) false) qs).
(* 107-134 Sigmoid, one wolf *)
Definition wolf_sigmoid (a : Q) (leaders : list (list bool)) (wolf : list bool) : HSt plain (list bool) :=
  let* xs := mmap (fun l => wolf_X a l wolf) leaders in
  if Nat.eqb (length xs) 0 then raise ValueError else
  sigmoid_binarize M (map (fun i => Fin (qsum (map (fun x => nth i x 0) xs) / qofnat (length xs))) (seq 0 (length wolf))).
Definition wolf_move (p : position) (a : Q) (leaders : list nat) (r : nat) : HSt plain nat :=
  let* wolf := genome r in
  let* lbits := mmap genome leaders in
  let* bits := match p with WCrossover => wolf_crossover a lbits wolf | WSigmoid => wolf_sigmoid a lbits wolf end in
  clone_with r bits.

Record wcfg : Type := mkW { w_iter : nat; w_size : nat; w_leaders : nat; w_pos : position }.
Variable c : wcfg.
(* base.py:64-79 one iteration *)
Definition wolf_step {L} (E : env L) (st : list nat * Q) : HSt plain (list nat * Q) :=
  let '(pop, a) := st in
  let* ranked := by_fitness_desc pop in
  let* pop' := mmap (wolf_move (w_pos c) a (firstn (w_leaders c) ranked)) pop in
  let* pop' := fit_all E pop' in
  ret (pop', a - 2 / qofnat (w_iter c)).
(* base.py:58-79 _optimize *)
Definition wolf_run L (E : env L) (ini : sinit) (pop : list nat) (_ : unit) : HSt plain (list nat * unit) :=
  let* pop := fit_all E pop in
  if Nat.eqb (w_iter c) 0 then raise ZeroDivisionError else
  let* z := iterate (w_iter c) (wolf_step E) (pop, 2) in
  ret (fst z, tt).
Definition wolves : optimizer plain := mkOpt plain unit (fun _ => w_size c) wolf_run.
End Wolves.
