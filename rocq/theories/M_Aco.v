(* Ant colony optimization for solution composition: suprb/optimizer/solution/aco. *)
From Verif Require Import PyNum PyList PyMon PyRng PyStat M_Matching M_Rule M_Mixing M_Solution M_Composition M_GenomeOps.

(* x ** a and np.sqrt: parameters *)
Record amath : Type := mkAmath { m_pow : num -> Q -> num; m_sqrt : num -> num }.
(* alpha, beta, tau0 of a builder, builder.py:14-17 *)
Record bparams : Type := mkBp { b_alpha : Q; b_beta : Q; b_tau0 : Q }.

(* np.clip: NaN stays *)
Definition nclip (lo hi x : num) : num :=
  let y := if nlt x lo then lo else x in if nlt hi y then hi else y.

(* builder.py:37-45 relative_fitness with scale 0.5: one pair (deselect, select) per rule *)
Definition relative_fitness {L} (pool : list (rule L)) : res (list (num * num)) :=
  let? fs := rmap (fitness_of L) pool in
  let? lo := nmin fs in let? hi := nmax fs in
  Ok (map (fun f => let v := nmul (ndiv (nsub f lo) (nsub hi lo)) (Fin (1#2)) in
                    (nadd (Fin 1) (nneg v), nadd (Fin 1) v)) fs).
(* weights of a pair, divided by their sum: the second one is the probability to select *)
Definition normalized (w : num * num) : num := ndiv (snd w) (nadd (fst w) (snd w)).
Definition weigh (A : amath) (b : bparams) (tau eta : num * num) : num * num :=
  (nmul (m_pow A (fst tau) (b_alpha b)) (m_pow A (fst eta) (b_beta b)),
   nmul (m_pow A (snd tau) (b_alpha b)) (m_pow A (snd eta) (b_beta b))).

(* A builder: its pheromones, their padding (None at first), the route of an ant as a genome, the update. *)
Record builder : Type := mkBuilder {
  ph : Type;
  ph_pad : option ph -> nat -> res ph;
  ph_map : (num -> num) -> ph -> ph;
  ph_build : forall L, ph -> list (rule L) -> HSt plain (list bool);
  ph_update : ph -> list bool -> num -> ph
}.

(* ----- Binary, builder.py:48-91: an N x 2 matrix ----- *)
(* 58-68; a negative pad width is a ValueError *)
Definition bin_pad (tau0 : Q) (p : option (list (num * num))) (size : nat) : res (list (num * num)) :=
  let rows := match p with Some r => r | None => [] end in
  if Nat.ltb size (length rows) then Raise ValueError
  else Ok (rows ++ repeat (Fin tau0, Fin tau0) (size - length rows)).
(* 70-86; different numbers of rows do not broadcast *)
Definition bin_build (A : amath) (b : bparams) L (p : list (num * num)) (pool : list (rule L)) : HSt plain (list bool) :=
  let* eta := lift (relative_fitness pool) in
  if negb (Nat.eqb (length p) (length pool)) then raise ValueError else
  let probs := map2 (fun t e => normalized (weigh A b t e)) p eta in
  let* us := rnd1 (randoms (length pool)) in
  ret (map2 (fun u w => nle (Fin u) w) us probs).
(* 88-91 *)
Definition flag (b : bool) : num := Fin (if b then 1 else 0).
Definition bin_update (p : list (num * num)) (genome : list bool) (delta : num) : list (num * num) :=
  map2 (fun t (g : bool) => (nadd (fst t) (nmul (flag (negb g)) delta), nadd (snd t) (nmul (flag g) delta))) p genome.
Definition Binary (A : amath) (b : bparams) : builder :=
  mkBuilder (list (num * num)) (bin_pad (b_tau0 b)) (fun f => map (fun t => (f (fst t), f (snd t)))) (bin_build A b) bin_update.

(* ----- Complete, builder.py:122-222: an N x N x 2 matrix ----- *)
(* 101-119 relative_bounds_overlap reads the raw bounds arrays, whatever the encoding *)
Definition bounds_overlap {L} (a b : rule L) : num * num :=
  let pairs := combine (bnd (cond a)) (bnd (cond b)) in
  if forallb (fun p => qle (fst (fst p)) (snd (snd p)) && qle (fst (snd p)) (snd (fst p))) pairs then
    let overlap := qprod (map (fun p => qmin (snd (fst p)) (snd (snd p)) - qmax (fst (fst p)) (fst (snd p))) pairs) in
    let v := ndiv (Fin overlap) (Fin (qmin (rule_volume L a) (rule_volume L b))) in
    (nadd (Fin 1) v, nadd (Fin 1) (nneg v))
  else (Fin 1, Fin 1).
Definition pair_sum (l : list (num * num)) : num * num := (nsum (map fst l), nsum (map snd l)).
Definition pair_mean (l : list (num * num)) : num * num := (nmean (map fst l), nmean (map snd l)).
Definition cmatrix : Type := list (list (num * num)).
(* 142-153 *)
Definition com_pad (tau0 : Q) (p : option cmatrix) (size : nat) : res cmatrix :=
  let rows := match p with Some r => r | None => [] end in
  if Nat.ltb size (length rows) then Raise ValueError
  else let padding := (size - length rows)%nat in
       Ok (map (fun r => r ++ repeat (Fin tau0, Fin tau0) padding) rows ++ repeat (repeat (Fin tau0, Fin tau0) size) padding).
Definition entry (p : cmatrix) (i j : nat) : res (num * num) :=
  let? r := of_option IndexError (nth_error p i) in of_option IndexError (nth_error r j).
(* 171-198: one rule j; route: the rules selected so far, in order *)
Definition com_prob (A : amath) (b : bparams) (partial : bool) {L} (p : cmatrix) (pool : list (rule L)) (eta : list (num * num))
  (route : list nat) (j : nat) : res num :=
  let? rj := of_option IndexError (nth_error pool j) in
  let? fj := of_option IndexError (nth_error eta j) in
  let considered := match rev route with [] => [] | last :: _ => if partial then route else [last] end in
  let? overlaps := rmap (fun i => let? ri := of_option IndexError (nth_error pool i) in Ok (bounds_overlap ri rj)) considered in
  let? taus := rmap (fun i => entry p i j) (match route with [] => seq 0 (length p) | _ => considered ++ [j] end) in
  let overlap := match route with [] => (Fin 1, Fin 1) | _ => pair_mean overlaps end in
  let heur := (m_sqrt A (nmul (fst fj) (fst overlap)), m_sqrt A (nmul (snd fj) (snd overlap))) in
  Ok (normalized (weigh A b (pair_sum taus) heur)).
Definition com_visit (A : amath) (b : bparams) (partial : bool) {L} (p : cmatrix) (pool : list (rule L)) (eta : list (num * num))
  (route : list nat) (j : nat) : HSt plain (list nat) :=
  let* w := lift (com_prob A b partial p pool eta route j) in
  let* u := rnd1 random in
  ret (if nle (Fin u) w then route ++ [j] else route).
Fixpoint com_route (visit : list nat -> nat -> HSt plain (list nat)) (order route : list nat) : HSt plain (list nat) :=
  match order with [] => ret route | j :: order' => let* route' := visit route j in com_route visit order' route' end.
(* 155-204 *)
Definition com_build (A : amath) (b : bparams) (partial : bool) L (p : cmatrix) (pool : list (rule L)) : HSt plain (list bool) :=
  let* eta := lift (relative_fitness pool) in
  let* order := rnd1 (shuffle (seq 0 (length pool))) in
  let* route := com_route (com_visit A b partial p pool eta) order [] in
  ret (map (fun i => mem i route) (seq 0 (length pool))).
(* pheromones[i, j, 1 or 0] += delta_tau *)
Definition bump (select : bool) (delta : num) (p : cmatrix) (ij : nat * nat) : cmatrix :=
  mapi (fun i r => if Nat.eqb i (fst ij) then
    mapi (fun j t => if Nat.eqb j (snd ij) then (if select then (fst t, nadd (snd t) delta) else (nadd (fst t) delta, snd t)) else t) r
  else r) p.
Definition bumps (select : bool) (delta : num) (ijs : list (nat * nat)) (p : cmatrix) : cmatrix := fold_left (bump select delta) ijs p.
(* np.nonzero *)
Definition positions (g : list bool) : list nat := filter (fun i => nth i g false) (seq 0 (length g)).
Definition diagonal (l : list nat) : list (nat * nat) := map (fun i => (i, i)) l.
(* 206-222; no index occurs twice in one addition, so the additions can be done one after the other *)
Definition com_update (p : cmatrix) (genome : list bool) (delta : num) : cmatrix :=
  let selected := positions genome in
  let deselected := positions (map negb genome) in
  let p1 := if Nat.ltb 1 (length selected)
            then bumps true delta (filter (fun ij => negb (Nat.eqb (fst ij) (snd ij))) (list_prod selected selected)) p
            else p in
  let p2 := bumps true delta (diagonal selected) p1 in
  let p3 := bumps false delta (diagonal deselected) p2 in
  fold_left (fun q ij => bump true delta (bump false delta q ij) (snd ij, fst ij)) (list_prod selected deselected) p3.
Definition Complete (A : amath) (b : bparams) (partial : bool) : builder :=
  mkBuilder cmatrix (com_pad (b_tau0 b)) (fun f => map (map (fun t => (f (fst t), f (snd t))))) (com_build A b partial) com_update.

(* ----- base.py ----- *)
(* warm_start is the attribute that also decides about the population (M_Composition: cwarm) *)
Record acfg : Type := mkA {
  a_iter : nat; a_size : nat; a_evap : Q; a_max : Q; a_min : Q; a_best : nat; a_c : Q; a_warm : bool }.
Section Colony.
Variables (B : builder) (c : acfg).
(* 89-116 one iteration *)
Definition aco_step {L} (E : env L) (st : list nat * ph B) : HSt plain (list nat * ph B) :=
  let '(pop, p) := st in
  miter (fun r => let* bits := ph_build B L p (epool E) in set_genome r bits) pop ;;
  fit_all E pop ;;
  let p1 := ph_map B (nmul (Fin (1 - a_evap c))) p in
  let* ranked := by_fitness_desc pop in
  (* pheromones.py:16-19 Fitness: fitness_ * c *)
  let* marks := mmap (fun r => let* bits := genome r in let* f := fitness r in ret (bits, nmul f (Fin (a_c c)))) (firstn (a_best c) ranked) in
  let p2 := fold_left (fun q m => ph_update B q (fst m) (snd m)) marks p1 in
  ret (pop, ph_map B (nclip (Fin (a_min c)) (Fin (a_max c))) p2).
(* 77-83 _init_pheromone_matrix, 85-116 _optimize *)
Definition aco_run L (E : env L) (ini : sinit) (pop : list nat) (st : option (ph B)) : HSt plain (list nat * option (ph B)) :=
  let* p := lift (ph_pad B (if a_warm c then st else None) (length (epool E))) in
  let* pop := fit_all E pop in
  let* z := iterate (a_iter c) (aco_step E) (pop, p) in
  ret (fst z, Some (snd z)).
Definition aco : optimizer plain := mkOpt plain (option (ph B)) (fun _ => a_size c) aco_run.
End Colony.
