(* Self-adapting genetic algorithms: suprb/optimizer/solution/saga1, saga2, saga3. *)
From Verif Require Import PyNum PyList PyMon PyRng PyStat M_Matching M_Rule M_Mixing M_Solution M_Composition M_GenomeOps M_GA.

(* ================= saga1 ================= *)
(* saga1/base.py:41-88; the rates are attributes that the run overwrites *)
Record s1cfg : Type := mkS1 {
  s1_iter : nat; s1_size : nat; s1_ratio : Q; s1_sel : selection; s1_x : xop;
  s1_vmin : Q; s1_vmax : Q;
  s1_mmin : Q; s1_mmax : Q; s1_mmult : Q; s1_cmin : Q; s1_cmax : Q; s1_cmult : Q }.
Record rates : Type := mkRates { r_mut : Q; r_cross : Q }.

(* 147-148 calc_gdm *)
Definition gdm (fs : list num) : res num := let? m := nmax fs in Ok (ndiv (nmean fs) m).
(* Python float division *)
Definition pydiv (a b : Q) : res Q := if qeq b 0 then Raise ZeroDivisionError else Ok (a / b).
(* 150-169 adjust_rates; Python min(a, b) and max(a, b) of finite numbers *)
Definition s1_adjust (c : s1cfg) (fs : list num) (r : rates) : res rates :=
  let? v := gdm fs in
  if nlt (Fin (s1_vmax c)) v then
    let? d := pydiv (r_cross r) (s1_cmult c) in
    Ok (mkRates (qmin (s1_mmax c) (r_mut r * s1_mmult c)) (qmax (s1_cmin c) d))
  else if nlt v (Fin (s1_vmin c)) then
    let? d := pydiv (r_mut r) (s1_mmult c) in
    Ok (mkRates (qmax (s1_mmin c) d) (qmin (s1_cmax c) (r_cross r * s1_cmult c)))
  else Ok r.

Section Generation.
Variable K : skind.
(* saga1/base.py:100-145, saga3/base.py:78-110: one generation, given how to cross two parents and how to mutate a child.
   The population size is even (asserted), so no parent is left over. *)
Definition saga_generation {L} (E : env L) (size : nat) (ratio : Q) (sel : selection)
  (cross : nat -> nat -> HSt K nat) (mutate : nat -> HSt K nat) (pop : list nat) : HSt K (list nat) :=
  let* ranked := by_fitness_desc pop in
  let elitists := firstn (n_elitists size ratio) ranked in
  let* parents := select sel pop size in
  let* children := offspring cross parents in
  let* mutated := mmap mutate children in
  fit_all E (elitists ++ mutated).
End Generation.
Arguments saga_generation {K L}.

(* 96-145 one iteration *)
Definition s1_step {K L} (c : s1cfg) (E : env L) (st : list nat * rates) : HSt K (list nat * rates) :=
  let '(pop, r) := st in
  let* fs := fitnesses pop in
  let* r' := lift (s1_adjust c fs r) in
  let* pop' := saga_generation E (s1_size c) (s1_ratio c) (s1_sel c)
                 (crossover false (s1_x c) (Fin (r_cross r'))) (bit_flips (Fin (r_mut r'))) pop in
  ret (pop', r').
(* 90-145 _optimize *)
Definition s1_run {K} (c : s1cfg) L (E : env L) (ini : sinit) (pop : list nat) (r : rates) : HSt K (list nat * rates) :=
  lift (assert_ (Nat.even (s1_size c))) ;;
  let* pop := fit_all E pop in
  iterate (s1_iter c) (s1_step c E) (pop, r).
Definition saga1 (c : s1cfg) : optimizer plain := mkOpt plain rates (fun _ => s1_size c) (s1_run c).

(* ================= saga2 ================= *)
Record s2cfg : Type := mkS2 {
  s2_iter : nat; s2_size : nat; s2_ratio : Q; s2_sel : selection; s2_x : xop;
  s2_mmin : Q; s2_mmax : Q; s2_cmin : Q; s2_cmax : Q }.
(* np.sqrt, np.cos(np.pi / 2 * x) and np.exp(-10): parameters *)
Record trig : Type := mkTrig { t_sqrt : num -> num; t_cos : num -> num; t_tiny : Q }.
(* crossover_rate_current_min, mutation_rate_current_max: kept between calls of optimize *)
Record rates2 : Type := mkRates2 { cur_cmin : num; cur_mmax : num }.
(* fitness_mean, fitness_min, fitness_max *)
Record fstats : Type := mkFstats { f_mean : num; f_min : num; f_max : num }.
Definition stats (fs : list num) : res fstats :=
  let? lo := nmin fs in let? hi := nmax fs in Ok (mkFstats (nmean fs) lo hi).

(* saga2/crossover.py:27-36 *)
Definition s2_xrate (lo hi : num) (st : fstats) (fa fb : num) : num :=
  let m := ndiv (nadd fa fb) (Fin 2) in
  if neqb (f_min st) (f_mean st) || neqb (f_mean st) (f_max st) then hi
  else if nle m (f_mean st)
  then nsub hi (nmul (nsub hi lo) (ndiv (nsub (f_mean st) m) (nsub (f_mean st) (f_min st))))
  else nsub hi (nmul (nsub hi lo) (ndiv (nsub m (f_mean st)) (nsub (f_max st) (f_mean st)))).
(* saga2/mutation.py:41-48 *)
Definition s2_mrate (lo hi : num) (st : fstats) (f : num) : num :=
  if neqb (f_max st) (f_mean st) then lo
  else if nlt (f_mean st) f
  then nadd lo (nmul (nsub hi lo) (ndiv (nsub (f_max st) f) (nsub (f_max st) (f_mean st))))
  else hi.

(* saga2/base.py:179-202 calc_similarity: a missing entry of the old generation is an IndexError *)
Fixpoint dot (old new : list num) : res num :=
  match new with
  | [] => Ok (Fin 0)
  | b :: new' => match old with
                 | [] => Raise IndexError
                 | a :: old' => let? d := dot old' new' in Ok (nadd (nmul a b) d)
                 end
  end.
Definition norm (t : trig) (fs : list num) : num := t_sqrt t (nadd (nsum (map (fun f => nmul f f) fs)) (Fin (t_tiny t))).
Definition similarity (t : trig) (old new : list num) : res num :=
  let? d := dot old new in
  let cosine := ndiv d (nadd (norm t new) (norm t old)) in
  let common := length (filter (fun x => existsb (neqb x) (distinct old)) (distinct new)) in
  let all := length (distinct (new ++ old)) in
  if Nat.eqb all 0 then Ok (Fin 1)
  else Ok (nmul cosine (Fin (qofnat common / qofnat all))).
(* 204-215 calc_diversity: also the new extreme variances *)
Definition diversity (t : trig) (vmin vmax : num) (st : fstats) (new : list num) : num * (num * num) :=
  let v := nvar new in
  let vmax' := if nlt vmax v then v else vmax in
  let vmin' := if nlt v vmin then v else vmin in
  let a := ndiv (nsub v vmin') vmax' in
  let b := if neqb (f_max st) (f_min st) then Fin 0
           else t_cos t (nsub (Fin 1) (ndiv (nsub (f_mean st) (f_min st)) (nsub (f_max st) (f_min st)))) in
  (nmul a b, (vmin', vmax')).
(* 217-229 calc_quality, adjust_rates *)
Definition s2_rates (c : s2cfg) (quality : num) : rates2 :=
  mkRates2 (nadd (Fin (s2_cmin c)) (ndiv (nmul quality (Fin (s2_cmax c - s2_cmin c))) (Fin 2)))
           (nsub (Fin (s2_mmax c)) (ndiv (nmul quality (Fin (s2_mmax c - s2_mmin c))) (Fin 2))).

Record s2state : Type := mkS2s {
  z_iter : nat; z_pop : list nat; z_stats : fstats; z_vmin : num; z_vmax : num; z_rates : rates2 }.
(* 104-170 the next generation, from selection to fit_population *)
Definition s2_breed {K L} (c : s2cfg) (E : env L) (st : fstats) (r : rates2) (pop : list nat) : HSt K (list nat) :=
  let* ranked := by_fitness_desc pop in
  let elitists := firstn (n_elitists (s2_size c) (s2_ratio c)) ranked in
  let* parents := select (s2_sel c) pop (s2_size c) in
  let cross a b :=
    let* fa := fitness a in let* fb := fitness b in
    crossover false (s2_x c) (s2_xrate (cur_cmin r) (Fin (s2_cmax c)) st fa fb) a b in
  let* children := offspring cross parents in
  fit_all E children ;;
  let* mutated := mmap (fun q => let* f := fitness q in
                                 bit_flips (s2_mrate (Fin (s2_mmin c)) (cur_mmax r) st f) q) children in
  fit_all E (elitists ++ mutated).
(* 102-177 one iteration; the old generation is the population before it *)
Definition s2_step {K L} (t : trig) (c : s2cfg) (E : env L) (z : s2state) : HSt K s2state :=
  let* pop' := s2_breed c E (z_stats z) (z_rates z) (z_pop z) in
  let* fs := fitnesses pop' in
  let* st := lift (stats fs) in
  if Nat.eqb (z_iter z) 0 then ret (mkS2s 1 pop' st (z_vmin z) (z_vmax z) (z_rates z))
  else
    let '(d, (vmin, vmax)) := diversity t (z_vmin z) (z_vmax z) st fs in
    let* old := fitnesses (z_pop z) in
    let* sim := lift (similarity t old fs) in
    ret (mkS2s (S (z_iter z)) pop' st vmin vmax (s2_rates c (nmul d (nsub (Fin 1) sim)))).
(* 87-177 _optimize *)
Definition s2_run {K} (t : trig) (c : s2cfg) L (E : env L) (ini : sinit) (pop : list nat) (r : rates2) : HSt K (list nat * rates2) :=
  lift (assert_ (Nat.even (s2_size c))) ;;
  let* pop := fit_all E pop in
  let* fs := fitnesses pop in
  let v := nvar fs in
  let* st := lift (stats fs) in
  let* z := iterate (s2_iter c) (s2_step t c E) (mkS2s 0 pop st v v r) in
  ret (z_pop z, z_rates z).
Definition saga2 (t : trig) (c : s2cfg) : optimizer plain := mkOpt plain rates2 (fun _ => s2_size c) (s2_run t c).
(* 76-85: the attributes of a new optimizer *)
Definition s2_init (c : s2cfg) : rates2 := mkRates2 (Fin (s2_cmin c)) (Fin (s2_mmax c)).

(* ================= saga3 ================= *)
(* saga3/solution_extension.py:82-98: rates and crossover method of a SagaSolution; clone 109-129 keeps them *)
Record params : Type := mkParams { p_cross : Q; p_mut : Q; p_method : xop }.
Definition saga_sol : skind := mkKind params (mkParams (9#10) (1#1000) (NPoint 3)) (fun x => x).
Record s3cfg : Type := mkS3 { s3_iter : nat; s3_size : nat; s3_ratio : Q; s3_sel : selection; s3_pmut : Q }.

(* saga3/crossover.py:20-21 min(max(v, 0.0), 1.0) *)
Definition clamp01 (v : Q) : Q := qmin (qmax v 0) 1.
(* saga3/crossover.py:12-29 *)
Definition saga_cross (pmut : Q) (a b : nat) : HSt saga_sol nat :=
  let* xa := get_ext (K := saga_sol) a in let* xb := get_ext (K := saga_sol) b in
  let* cr := rnd (choice1 [p_cross xa; p_cross xb]) in
  let* mr := rnd (choice1 [p_mut xa; p_mut xb]) in
  let* me := rnd (choice1 [p_method xa; p_method xb]) in
  let* u := rnd1 random in
  let* p := if qlt u pmut then
              let* z1 := rnd1 draw in let* z2 := rnd1 draw in
              let* me' := rnd (choice1 [NPoint 3; Uniform]) in
              ret (mkParams (clamp01 (cr + normal_of 0 1 z1)) (clamp01 (mr + normal_of 0 1 z2)) me')
            else ret (mkParams cr mr me) in
  let* child := crossover false (p_method p) (Fin (p_cross p)) a b in
  set_ext (K := saga_sol) child p ;; ret child.
(* saga3/mutation.py:23-26 *)
Definition saga_flips (r : nat) : HSt saga_sol nat := let* x := get_ext (K := saga_sol) r in bit_flips (Fin (p_mut x)) r.
(* saga3/base.py:71-110 _optimize *)
Definition s3_run (c : s3cfg) L (E : env L) (ini : sinit) (pop : list nat) (_ : unit) : HSt saga_sol (list nat * unit) :=
  lift (assert_ (Nat.even (s3_size c))) ;;
  let* pop := fit_all E pop in
  let* pop' := iterate (s3_iter c)
                 (saga_generation E (s3_size c) (s3_ratio c) (s3_sel c) (saga_cross (s3_pmut c)) saga_flips) pop in
  ret (pop', tt).
Definition saga3 (c : s3cfg) : optimizer saga_sol := mkOpt saga_sol unit (fun _ => s3_size c) (s3_run c).
