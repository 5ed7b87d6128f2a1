(* Model of what SupRB.fit (suprb/suprb.py) prints and warns about on the way, and of the text forms of rules and solutions
   (suprb/base.py:40-47).  M_Fit leaves all output away; here the same steps carry what was put out so far. *)
From Coq Require Import String.
From Verif Require Import PyNum PyList PyMon PyRng M_Matching M_Rule M_Mixing M_Fit.

(* the messages of suprb.py:243, 266 and 317 *)
Inductive message : Type :=
| EmptyBounds (key : string)           (* Found empty bounds for ..., estimating from data *)
| Generating (n : nat)                 (* Generating ... rules *)
| Optimizing.                          (* Optimizing populations *)
(* everything that fit puts out itself, apart from the logger; tracebacks and line breaks are left away *)
Inductive output : Type :=
| Progress (i n : nat) (m : message)   (* 299-303: [i/n] message *)
| StoppedAfter (patience : Z)          (* 117-119: Execution was stopped early after ... *)
| ElitistWas (f : num)                 (* 120: The elitist fitness value was: ... *)
| EmptyPopulation                      (* 258-261: PopulationEmptyWarning, "Solution optimization will be skipped." *)
| FailedValueError (x : exn)           (* 228: The following ValueError has occurred: ... *)
| FailedOther (x : exn).               (* 235: An error has occurred. This is likely due to a bad configuration: ... *)

(* isinstance(e, ValueError): NotFittedError of scikit-learn is derived from it *)
Definition value_error (x : exn) : bool := match x with ValueError | NotFittedError => true | _ => false end.

Section Verbose.
Variable L : learner.
Variables (D : discovery L) (C : composition L) (G : logger L).
Notation est := (est D C G).
(* verbose: the parameter; empty: the parameters of the rule discovery whose name ends in "bounds" and whose value is None, in the order
   of get_params (315-316) *)
Variables (verbose : Z) (empty : list string).
Notation VSt := (St (est * list output)).

(* steps that put nothing out, and output *)
Definition silently {A} (m : St est A) : VSt A := fun s => let '(r, e) := m (fst s) in (r, (e, snd s)).
Definition say (o : output) : VSt unit := fun s => (Ok tt, (fst s, snd s ++ [o])).
(* 299-303 _log_to_stdout *)
Definition log_to_stdout (p : params) (priority : Z) (m : message) : VSt unit :=
  if Z.leb priority verbose then let* s := get in say (Progress (S (step (fst s))) (n_iter p) m) else ret tt.

(* 240-261 _discover_rules *)
Definition discover_v (p : params) (X : matrix) (y : targets) (n : nat) : VSt unit :=
  log_to_stdout p 4 (Generating n) ;;
  silently (discover X y n) ;;
  let* s := get in
  match pool (fst s) with [] => say EmptyPopulation | _ => ret tt end.
(* 263-272 _compose_solution *)
Definition compose_v (p : params) (X : matrix) (y : targets) : VSt unit :=
  log_to_stdout p 4 Optimizing ;; silently (compose_step X y).
(* 217-238 _catch_errors: the exceptions outside of Python are those of M_Fit.catch *)
Definition catch_v (m : VSt unit) : VSt bool :=
  fun s => match m s with
           | (Ok _, s') => (Ok false, s')
           | (Raise x, s') =>
               if python_exn x then
                 (say (if value_error x then FailedValueError x else FailedOther x) ;; silently (assign (set_status true true)) ;; ret true) s'
               else (Raise x, s')
           end.
Definition discover_safely_v (p : params) (X : matrix) (y : targets) (n : nat) : VSt bool :=
  catch_v (if Nat.eqb n 0 then raise TypeError else discover_v p X y n).
Definition compose_safely_v (p : params) (X : matrix) (y : targets) : VSt bool := catch_v (compose_v p X y).

(* 108-122 check_early_stopping *)
Definition check_early_stopping_v (p : params) : VSt bool :=
  if Z.ltb 0 (patience p) then
    let* s := get in
    let* el := lift (best (fst s)) in
    let* b := lift (of_option AttributeError el) in
    let diff := nsub (sfitness (eatt b)) (previous (fst s)) in
    if nlt (Fin (delta p)) diff then silently (assign (set_counter 0)) ;; ret false
    else silently (assign (set_counter (S (counter (fst s))))) ;;
         if Z.leb (patience p) (Z.of_nat (S (counter (fst s))))
         then say (StoppedAfter (patience p)) ;; say (ElitistWas (previous (fst s))) ;; ret true
         else ret false
  else ret false.

(* 191-204 *)
Fixpoint main_loop_v (p : params) (X : matrix) (y : targets) (steps : list nat) : VSt bool :=
  match steps with
  | [] => ret false
  | i :: steps' =>
      silently (assign (set_step i)) ;;
      let* failed := discover_safely_v p X y (n_rules p) in
      if failed then ret true else
      let* failed := compose_safely_v p X y in
      if failed then ret true else
      let* s := get in
      let e := fst s in
      let* l := lift (the_logs e) in
      let* l' := lift (literation G X y (step e) (pool e) (population e) (best e) l) in
      silently (assign (set_logs (Some l'))) ;;
      let* stop := check_early_stopping_v p in
      if stop then ret false else main_loop_v p X y steps'
  end.

(* 143-175 *)
Definition set_up (p : params) (os : Z) (X : matrix) (y : targets) : St est unit :=
  assign (set_counter 0) ;;
  assign (fun e => mkEst (step e) (counter e) (Fin 0) (is_error e) (is_fitted e) (elitist e) (pool e) (dseeds e) (cseeds e) (disc e) (compo e) (logs e) (max_len e)) ;;
  assign (fun e => set_status false (is_fitted e) e) ;;
  assign (set_elitist (Some Placeholder)) ;;
  lift (check_X_y X y) ;;
  lift (check_random_state (random_state p)) ;;
  let* s := lift (seed_sequence os (random_state p)) in
  let seeds := fst (spawn s (n_iter p * 2)) in
  assign (set_seeds (evens seeds) (odds seeds)) ;;
  assign (set_pool []) ;;
  let* d := lift (dnew D X) in
  let* c := lift (cnew C) in
  assign (set_comps (Some d) (Some c)).
(* 177-183 *)
Definition open_logs (p : params) : St est unit :=
  assign (set_max (n_rules p * n_iter p + n_initial p)) ;;
  let* l := lift (linit G) in
  assign (set_logs (Some l)).
(* 312-318 _init_bounds: what is estimated is part of M_Fit.dnew *)
Definition init_bounds_v (p : params) : VSt unit := miter (fun key => log_to_stdout p 1 (EmptyBounds key)) empty.
(* 124-215 fit.  Simplification: a discovery that cannot be set up fails before the messages about its bounds *)
Definition fit_v (p : params) (os : Z) (clean : bool) (X : matrix) (y : targets) : VSt unit :=
  silently (set_up p os X y) ;;
  init_bounds_v p ;;
  silently (open_logs p) ;;
  let* failed := if Nat.ltb 0 (n_initial p) then discover_safely_v p X y (n_initial p) else ret false in
  if failed then ret tt else
  let* failed := main_loop_v p X y (seq 0 (n_iter p)) in
  if failed then ret tt else silently (finish clean X y).
End Verbose.
Arguments silently {L D C G A}. Arguments say {L D C G}. Arguments log_to_stdout {L D C G}. Arguments discover_v {L D C G}.
Arguments compose_v {L D C G}. Arguments catch_v {L D C G}. Arguments discover_safely_v {L D C G}. Arguments compose_safely_v {L D C G}.
Arguments check_early_stopping_v {L D C G}. Arguments main_loop_v {L D C G}. Arguments set_up {L D C G}. Arguments open_logs {L D C G}.
Arguments init_bounds_v {L D C G}. Arguments fit_v {L D C G}.

(* ----- text forms ----- *)
(* base.py:40-47 with rule/base.py:106-107: the attributes shown, in order.  A __str__ that returns None makes str() raise TypeError.
   How a number is written is left away. *)
Definition rule_text {L} (r : rule L) : res (list (string * num)) :=
  match att r with
  | Some a => if M_Rule.is_fitted a then Ok [("error", error a); ("fitness", fitness a); ("experience", Fin (experience a))]%string
              else Raise TypeError
  | None => Raise TypeError
  end.
(* the same with solution/base.py:100-101; None: not fitted *)
Definition solution_text (a : option satts) : res (list (string * num)) :=
  match a with
  | Some s => Ok [("error", Fin (serror s)); ("fitness", sfitness s); ("complexity", Fin (qofnat (scomplexity s)))]%string
  | None => Raise TypeError
  end.
(* the placeholder of suprb.py:147-150 has an error, a fitness and a complexity, but no is_fitted_ *)
Definition model_text {L} (m : model L) : res (list (string * num)) :=
  match m with Placeholder => solution_text None | Learned b => solution_text (Some (eatt b)) end.
