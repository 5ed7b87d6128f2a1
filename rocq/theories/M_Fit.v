(* The estimator: suprb/suprb.py, and the random-state helpers of suprb/utils.py.
   The two components and the logger are parameters with a state of their own; M_Shipped puts the library's components in.
   Numbers of rules and iterations are natural numbers. *)
From Verif Require Import PyNum PyList PyMon PyRng M_Matching M_Rule M_RuleGen M_Mixing.

(* ================= numpy.random.SeedSequence ================= *)
(* Entropy and spawn key determine the stream; spawn() numbers the children consecutively and remembers how many there were. *)
Record stream : Type := mkStream { entropy : Z; skey : list nat }.
Record seedseq : Type := mkSeed { sstream : stream; spawned : nat }.
Definition child (s : seedseq) (i : nat) : stream := mkStream (entropy (sstream s)) (skey (sstream s) ++ [i]).
Definition spawn (s : seedseq) (n : nat) : list seedseq * seedseq :=
  (map (fun i => mkSeed (child s (spawned s + i)) 0) (seq 0 n), mkSeed (sstream s) (spawned s + n)).
(* the parameter random_state *)
Inductive rstate : Type := NoSeed | IntSeed (z : Z) | Generator_ | OtherSeed.
(* utils.py:10-32 check_random_state, as far as it raises: default_rng refuses negative numbers *)
Definition check_random_state (r : rstate) : res unit :=
  match r with
  | NoSeed | Generator_ => Ok tt
  | IntSeed z => if Z.ltb z 0 then Raise ValueError else Ok tt
  | OtherSeed => Raise ValueError
  end.
(* np.random.SeedSequence(random_state): numbers or None only; without a number the operating system is asked *)
Definition seed_sequence (os : Z) (r : rstate) : res seedseq :=
  match r with
  | NoSeed => Ok (mkSeed (mkStream os []) 0)
  | IntSeed z => if Z.ltb z 0 then Raise ValueError else Ok (mkSeed (mkStream z []) 0)
  | Generator_ | OtherSeed => Raise TypeError
  end.
(* l[::2], l[1::2] *)
Fixpoint evens {A} (l : list A) : list A := match l with x :: _ :: l' => x :: evens l' | _ => l end.
Definition odds {A} (l : list A) : list A := match l with _ :: l' => evens l' | [] => [] end.

(* ================= sklearn.utils.check_X_y, check_array ================= *)
(* a rectangular table with at least one row and one column *)
Definition check_X (X : matrix) : res unit :=
  match X with
  | [] => Raise ValueError
  | x :: _ => if Nat.eqb (length x) 0 || negb (forallb (fun r => Nat.eqb (length r) (length x)) X) then Raise ValueError else Ok tt
  end.
Definition check_X_y (X : matrix) (y : targets) : res unit :=
  let? _ := check_X X in if Nat.eqb (length y) (length X) then Ok tt else Raise ValueError.

(* what `except Exception` catches: everything but the markers of this model *)
Definition python_exn (e : exn) : bool := match e with OutOfFuel | Dangling | NotModelled => false | _ => true end.

Section Fit.
Variable L : learner.

(* a solution that was read off a component: genome, mixing model, measured values; its pool is the estimator's list *)
Record solution : Type := mkSolution { sbits : list bool; smix : mixing; smeasured : satts }.
Record elite : Type := mkElite { ebits : list bool; epool : list (rule L); emix : mixing; eatt : satts }.
(* self.elitist_: the placeholder of 147-150, or a learned one *)
Inductive model : Type := Placeholder | Learned (e : elite).

(* A rule discovery: what clone(), the propagated parameters and the estimated bounds make of it (168, 173-175), and optimize(X, y, n_rules)
   reading pool_, elitist_ and random_state: the rules, how many children it spawned from the seed, its new state. *)
Record discovery : Type := mkDiscovery {
  dst : Type;
  dnew : matrix -> res dst;
  drun : matrix -> targets -> list (rule L) -> option elite -> nat -> seedseq -> dst -> res (list (rule L)) * (nat * dst) }.
(* A solution composition: clone() (169), optimize(X, y) reading pool_, max_genome_length_ and random_state, elitist(),
   and the measured values of population_. *)
Record composition : Type := mkComposition {
  cst : Type;
  cnew : res cst;
  crun : matrix -> targets -> nat -> list (rule L) -> seedseq -> cst -> res unit * cst;
  cbest : cst -> res (option solution);
  cpopulation : cst -> res (list satts) }.
(* A logger that reads data, step_, pool, population and elitist: log_init, log_iteration, log_final *)
Record logger : Type := mkLogger {
  lst : Type;
  linit : res lst;
  literation : matrix -> targets -> nat -> list (rule L) -> res (list satts) -> res (option elite) -> lst -> res lst;
  lfinal : matrix -> targets -> list (rule L) -> model -> lst -> res lst }.

Variables (D : discovery) (C : composition) (G : logger).

(* 80-106 __init__ *)
Record params : Type := mkParams {
  n_iter : nat; n_initial : nat; n_rules : nat; random_state : rstate; patience : Z; delta : Q }.
(* the attributes fit leaves behind; None: not assigned yet, or deleted.  step_ is a class attribute with value 0 (61). *)
Record est : Type := mkEst {
  step : nat;
  counter : nat;                       (* early_stopping_counter_ *)
  previous : num;                      (* previous_fitness_ *)
  is_error : bool;                     (* hasattr(self, "is_error_") and self.is_error_ *)
  is_fitted : bool;                    (* hasattr(self, "is_fitted_") *)
  elitist : option model;
  pool : list (rule L);
  dseeds : list seedseq;               (* rule_discovery_seeds_ *)
  cseeds : list seedseq;               (* solution_composition_seeds_ *)
  disc : option (dst D);               (* rule_discovery_ *)
  compo : option (cst C);              (* solution_composition_ *)
  logs : option (lst G);               (* logger_ *)
  max_len : nat                        (* init.fitness.max_genome_length_ *)
}.
Definition unfitted : est := mkEst 0 0 (Fin 0) false false None [] [] [] None None None 0.

(* assignments *)
Definition set_step i e := mkEst i (counter e) (previous e) (is_error e) (is_fitted e) (elitist e) (pool e) (dseeds e) (cseeds e) (disc e) (compo e) (logs e) (max_len e).
Definition set_counter i e := mkEst (step e) i (previous e) (is_error e) (is_fitted e) (elitist e) (pool e) (dseeds e) (cseeds e) (disc e) (compo e) (logs e) (max_len e).
Definition set_status er fi e := mkEst (step e) (counter e) (previous e) er fi (elitist e) (pool e) (dseeds e) (cseeds e) (disc e) (compo e) (logs e) (max_len e).
Definition set_elitist m e := mkEst (step e) (counter e) (previous e) (is_error e) (is_fitted e) m (pool e) (dseeds e) (cseeds e) (disc e) (compo e) (logs e) (max_len e).
Definition set_pool p e := mkEst (step e) (counter e) (previous e) (is_error e) (is_fitted e) (elitist e) p (dseeds e) (cseeds e) (disc e) (compo e) (logs e) (max_len e).
Definition set_seeds d c e := mkEst (step e) (counter e) (previous e) (is_error e) (is_fitted e) (elitist e) (pool e) d c (disc e) (compo e) (logs e) (max_len e).
Definition set_comps d c e := mkEst (step e) (counter e) (previous e) (is_error e) (is_fitted e) (elitist e) (pool e) (dseeds e) (cseeds e) d c (logs e) (max_len e).
Definition set_logs l e := mkEst (step e) (counter e) (previous e) (is_error e) (is_fitted e) (elitist e) (pool e) (dseeds e) (cseeds e) (disc e) (compo e) l (max_len e).
Definition set_max n e := mkEst (step e) (counter e) (previous e) (is_error e) (is_fitted e) (elitist e) (pool e) (dseeds e) (cseeds e) (disc e) (compo e) (logs e) n.
Definition assign (f : est -> est) : St est unit := fun e => (Ok tt, f e).
(* self.rule_discovery_, self.solution_composition_, self.logger_ *)
Definition the_disc (e : est) : res (dst D) := of_option AttributeError (disc e).
Definition the_compo (e : est) : res (cst C) := of_option AttributeError (compo e).
Definition the_logs (e : est) : res (lst G) := of_option AttributeError (logs e).
(* self.solution_composition_.elitist() *)
Definition with_pool (p : list (rule L)) (s : solution) : elite := mkElite (sbits s) p (smix s) (smeasured s).
Definition best (e : est) : res (option elite) :=
  let? c := the_compo e in let? s := cbest C c in Ok (option_map (with_pool (pool e)) s).

(* self.solution_composition_.population_ *)
Definition population (e : est) : res (list satts) := let? c := the_compo e in cpopulation C c.

(* 240-261 _discover_rules *)
Definition discover (X : matrix) (y : targets) (n : nat) : St est unit :=
  let* e := get in
  let* el := lift (best e) in
  let* d := lift (the_disc e) in
  let* s := lift (of_option IndexError (nth_error (dseeds e) (step e))) in
  let '(r, (k, d')) := drun D X y (pool e) el n s d in
  assign (set_comps (Some d') (compo e)) ;;
  assign (set_seeds (update (dseeds e) (step e) (mkSeed (sstream s) (spawned s + k))) (cseeds e)) ;;
  let* new := lift r in
  assign (set_pool (pool e ++ new)).
(* 263-272 _compose_solution *)
Definition compose_step (X : matrix) (y : targets) : St est unit :=
  let* e := get in
  let* c := lift (the_compo e) in
  let* s := lift (of_option IndexError (nth_error (cseeds e) (step e))) in
  let '(r, c') := crun C X y (max_len e) (pool e) s c in
  assign (set_comps (disc e) (Some c')) ;; lift r.
(* 217-238 _catch_errors *)
Definition catch (m : St est unit) : St est bool :=
  fun e => match m e with
           | (Ok _, e') => (Ok false, e')
           | (Raise x, e') => if python_exn x then (Ok true, set_status true true e') else (Raise x, e')
           end.
(* _catch_errors(self._discover_rules, X, y, n): with n == 0 the function is called without its third argument *)
Definition discover_safely (X : matrix) (y : targets) (n : nat) : St est bool :=
  catch (if Nat.eqb n 0 then raise TypeError else discover X y n).
Definition compose_safely (X : matrix) (y : targets) : St est bool := catch (compose_step X y).

(* 108-122 check_early_stopping *)
Definition check_early_stopping (p : params) : St est bool :=
  if Z.ltb 0 (patience p) then
    let* e := get in
    let* el := lift (best e) in
    let* b := lift (of_option AttributeError el) in
    let diff := nsub (sfitness (eatt b)) (previous e) in
    if nlt (Fin (delta p)) diff then assign (set_counter 0) ;; ret false
    else assign (set_counter (S (counter e))) ;;
         ret (Z.leb (patience p) (Z.of_nat (S (counter e))))
  else ret false.

(* 191-204; the result says whether fit returns at once *)
Fixpoint main_loop (p : params) (X : matrix) (y : targets) (steps : list nat) : St est bool :=
  match steps with
  | [] => ret false
  | i :: steps' =>
      assign (set_step i) ;;
      let* failed := discover_safely X y (n_rules p) in
      if failed then ret true else
      let* failed := compose_safely X y in
      if failed then ret true else
      let* e := get in
      let* l := lift (the_logs e) in
      let* l' := lift (literation G X y (step e) (pool e) (population e) (best e) l) in
      assign (set_logs (Some l')) ;;
      let* stop := check_early_stopping p in
      if stop then ret false else main_loop p X y steps'
  end.

(* 325-337 _cleanup *)
Definition cleanup : St est unit :=
  let* e := get in
  let* m := lift (of_option AttributeError (elitist e)) in
  match m with
  | Placeholder => assign (set_pool [])          (* the three zeros select nothing *)
  | Learned b =>
      let* sub := lift (subpopulation L (ebits b) (epool b)) in
      assign (set_pool sub) ;;
      assign (set_elitist (Some (Learned (mkElite (repeat true (length sub)) sub (emix b) (eatt b)))))
  end ;;
  let* e := get in
  lift (the_disc e) ;; assign (set_comps None (compo e)) ;;
  lift (the_compo e) ;; assign (set_comps None None).

(* 143-183 of fit: everything up to the first discovery.  os: what the operating system delivers when there is no seed.
   Simplification: clones and parameter changes of 168-180 are one step, an exception in it leaves the old components in place. *)
Definition prepare (p : params) (os : Z) (X : matrix) (y : targets) : St est unit :=
  assign (set_counter 0) ;;
  assign (fun e => mkEst (step e) (counter e) (Fin 0) (is_error e) (is_fitted e) (elitist e) (pool e) (dseeds e) (cseeds e) (disc e) (compo e) (logs e) (max_len e)) ;;
  assign (fun e => set_status false (is_fitted e) e) ;;
  assign (set_elitist (Some Placeholder)) ;;
  lift (check_X_y X y) ;;
  lift (check_random_state (random_state p)) ;;
  let* s := lift (seed_sequence os (random_state p)) in
  let seeds := fst (spawn s (n_iter p * 2)) in
  assign (set_seeds (evens seeds) (odds seeds)) ;;
  assign (set_pool []) ;;
  let* d := lift (dnew D X) in
  let* c := lift (cnew C) in
  assign (set_comps (Some d) (Some c)) ;;
  assign (set_max (n_rules p * n_iter p + n_initial p)) ;;
  let* l := lift (linit G) in
  assign (set_logs (Some l)).
(* 206-215 *)
Definition finish (clean : bool) (X : matrix) (y : targets) : St est unit :=
  let* e := get in
  let* el := lift (best e) in
  let* b := lift (of_option AttributeError el) in
  assign (set_elitist (Some (Learned b))) ;;
  assign (fun e => set_status (is_error e) true e) ;;
  let* e := get in
  let* l := lift (the_logs e) in
  let* l' := lift (lfinal G X y (pool e) (Learned b) l) in
  assign (set_logs (Some l')) ;;
  if clean then cleanup else ret tt.
(* 124-215 fit *)
Definition fit (p : params) (os : Z) (clean : bool) (X : matrix) (y : targets) : St est unit :=
  prepare p os X y ;;
  let* failed := if Nat.ltb 0 (n_initial p) then discover_safely X y (n_initial p) else ret false in
  if failed then ret tt else
  let* failed := main_loop p X y (seq 0 (n_iter p)) in
  if failed then ret tt else finish clean X y.

(* 274-283 predict; the placeholder selects no rule, so its mixing model answers zeros *)
Definition predict (e : est) (X : matrix) : St rng (list Q) :=
  if negb (is_fitted e) then raise NotFittedError else
  lift (check_X X) ;;
  if is_error e then ret (repeat 0 (length X)) else
  match elitist e with
  | None => raise AttributeError
  | Some Placeholder => ret (repeat 0 (length X))
  | Some (Learned b) => sol_predict L (emix b) (ebits b) (epool b) X false
  end.

(* ----- several calls of fit on the same object ----- *)
(* the parameters may be changed in between (set_params); an exception leaves the object as it is *)
Record call : Type := mkCall { cparams : params; cos : Z; cclean : bool; cX : matrix; cy : targets }.
Definition do_call (e : est) (c : call) : est := snd (fit (cparams c) (cos c) (cclean c) (cX c) (cy c) e).
Definition after (calls : list call) : est := fold_left do_call calls unfitted.
End Fit.

Arguments mkElite {L}. Arguments ebits {L}. Arguments epool {L}. Arguments emix {L}. Arguments eatt {L}. Arguments with_pool {L}.
Arguments Placeholder {L}. Arguments Learned {L}.
Arguments mkDiscovery {L}. Arguments dst {L}. Arguments dnew {L}. Arguments drun {L}.
Arguments mkComposition {L}. Arguments cst {L}. Arguments cnew {L}. Arguments crun {L}. Arguments cbest {L}. Arguments cpopulation {L}.
Arguments mkLogger {L}. Arguments lst {L}. Arguments linit {L}. Arguments literation {L}. Arguments lfinal {L}.
Arguments step {L D C G}. Arguments counter {L D C G}. Arguments previous {L D C G}. Arguments is_error {L D C G}. Arguments is_fitted {L D C G}. Arguments elitist {L D C G}. Arguments pool {L D C G}. Arguments dseeds {L D C G}. Arguments cseeds {L D C G}. Arguments disc {L D C G}. Arguments compo {L D C G}. Arguments logs {L D C G}. Arguments max_len {L D C G}.
Arguments est {L}. Arguments mkEst {L D C G}. Arguments unfitted {L}.
Arguments set_step {L D C G}. Arguments set_counter {L D C G}. Arguments set_status {L D C G}. Arguments set_elitist {L D C G}. Arguments set_pool {L D C G}. Arguments set_seeds {L D C G}. Arguments set_comps {L D C G}. Arguments set_logs {L D C G}. Arguments set_max {L D C G}. Arguments assign {L D C G}. Arguments the_disc {L D C G}. Arguments the_compo {L D C G}. Arguments the_logs {L D C G}. Arguments best {L D C G}. Arguments population {L D C G}. Arguments discover {L D C G}. Arguments compose_step {L D C G}. Arguments catch {L D C G}. Arguments discover_safely {L D C G}. Arguments compose_safely {L D C G}. Arguments check_early_stopping {L D C G}. Arguments main_loop {L D C G}. Arguments cleanup {L D C G}. Arguments prepare {L D C G}. Arguments finish {L D C G}. Arguments fit {L D C G}. Arguments predict {L D C G}. Arguments do_call {L D C G}. 
Arguments after {L}.
