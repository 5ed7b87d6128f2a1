(* suprb/optimizer/rule/base.py:93-97: Parallel(n_jobs)(delayed(self._optimize)(...) for ...), with what joblib does behind it.
   A task is a run that touches the attributes of self now and then; between two such steps another thread may run. *)
From Verif Require Import PyNum PyList PyMon PyRng PyStat M_Matching M_Rule M_RuleGen M_Mixing M_GenomeOps M_Discovery.

Section Tasks.
(* what the tasks share: the attributes of self that a run writes *)
Variable mem : Type.
(* a run: over, or an access to the shared attributes and then on with what it found *)
Inductive proc (A : Type) : Type := Ended (r : res A) | Next (f : mem -> mem) (k : mem -> proc A).
Arguments Ended {A}. Arguments Next {A}.
Fixpoint pbind {A B} (p : proc A) (k : A -> proc B) : proc B :=
  match p with
  | Ended (Ok a) => k a
  | Ended (Raise e) => Ended (Raise e)
  | Next f k' => Next f (fun s => pbind (k' s) k)
  end.
(* running alone to the end *)
Fixpoint exec {A} (p : proc A) (s : mem) : res A * mem :=
  match p with Ended r => (r, s) | Next f k => let s' := f s in exec (k s') s' end.
Definition pstep {A} (p : proc A) (s : mem) : proc A * mem :=
  match p with Ended r => (p, s) | Next f k => let s' := f s in (k s', s') end.
(* [func(...) for func in batch] in a worker, or all of them with n_jobs=1 (joblib's sequential backend) *)
Fixpoint batch {A} (ps : list (proc A)) : proc (list A) :=
  match ps with [] => Ended (Ok []) | p :: ps' => pbind p (fun a => pbind (batch ps') (fun l => Ended (Ok (a :: l)))) end.
(* retrieving the results: in the order of submission, the first exception ends it *)
Definition collect {A} (rs : list (res A)) : res (list A) := rmap (fun r => r) rs.

(* threads share the memory; the scheduler says whose turn it is (a turn of a finished or unknown thread does nothing) *)
Fixpoint threads {A} (schedule : list nat) (ps : list (proc A)) (s : mem) : list (proc A) * mem :=
  match schedule with
  | [] => (ps, s)
  | i :: schedule' =>
      match nth_error ps i with
      | Some p => let '(p', s') := pstep p s in threads schedule' (update ps i p') s'
      | None => threads schedule' ps s
      end
  end.
(* processes have their own copy of everything, made when the task was handed over *)
Fixpoint processes {A} (schedule : list nat) (ps : list (proc A * mem)) : list (proc A * mem) :=
  match schedule with
  | [] => ps
  | i :: schedule' =>
      match nth_error ps i with
      | Some (p, s) => processes schedule' (update ps i (pstep p s))
      | None => processes schedule' ps
      end
  end.
(* the results when all are over *)
Fixpoint results {A} (ps : list (proc A)) : option (list (res A)) :=
  match ps with
  | [] => Some []
  | Ended r :: ps' => option_map (cons r) (results ps')
  | Next _ _ :: _ => None
  end.
End Tasks.
Arguments Ended {mem A}. Arguments Next {mem A}. Arguments pbind {mem A B}. Arguments exec {mem A}. Arguments pstep {mem A}. Arguments batch {mem A}.
Arguments threads {mem A}. Arguments processes {mem A}. Arguments results {mem A}.

(* ----- the three ways joblib runs tasks; None: the schedule ended too early ----- *)
Definition in_sequence {mem A} (s : mem) (ps : list (proc mem A)) : option (res (list A)) := Some (fst (exec (batch ps) s)).
Definition in_threads {mem A} (schedule : list nat) (s : mem) (ps : list (proc mem A)) : option (res (list A)) :=
  option_map collect (results (fst (threads schedule ps s))).
(* auto-batching: sizes of the batches of consecutive tasks; the rest is one batch *)
Fixpoint chop {A} (sizes : list nat) (l : list A) : list (list A) :=
  match sizes with [] => [l] | k :: sizes' => firstn k l :: chop sizes' (skipn k l) end.
Definition in_processes {mem A} (sizes schedule : list nat) (s : mem) (ps : list (proc mem A)) : option (res (list A)) :=
  option_map (fun rs => let? ls := collect rs in Ok (concat ls))
    (results (map fst (processes schedule (map (fun b => (batch b, s)) (chop sizes ps))))).

(* ----- es/es.py:99-137 as a run; the shared attribute is self.mutation.sigma (of the inner mutation for SigmaRange: what SigmaRange
   writes to its own sigma only serves the test in mutation.py:51, which every float passes) ----- *)
Definition prun (A : Type) : Type := rng -> proc sigma (A * rng).
Definition pret {A} (a : A) : prun A := fun g => Ended (Ok (a, g)).
Definition pthen {A B} (m : prun A) (k : A -> prun B) : prun B := fun g => pbind (m g) (fun ag => k (fst ag) (snd ag)).
Definition plift {A} (r : res A) : prun A := fun g => Ended (match r with Ok a => Ok (a, g) | Raise e => Raise e end).
Definition pst {A} (m : St rng A) : prun A := fun g => Ended (match m g with (Ok a, g') => Ok (a, g') | (Raise e, _) => Raise e end).
(* mutation.py:15-33: the mutation reads its sigma.  Simplification: once per call. *)
Definition mutate_p (mu : mutation) (m : matching) : prun matching := fun g => Next (fun s => s) (fun s => pst (mutate (with_sigma mu s) m) g).
(* mutation.py:50-54 *)
Definition mutate_rule_p (mu : rmutation) (m : matching) : prun matching :=
  match mu with
  | Mut mu => mutate_p mu m
  | MutRange mu low high => fun g => let '(q, g1) := draw g in Next (fun _ => Scalar (uniform_of low high q)) (fun _ => mutate_p mu m g1)
  end.
Section Es.
Variable L : learner.
Definition mutant_p (c : dcfg) (mu : rmutation) (D : denv L) (r : rule L) : prun (rule L) :=
  pthen (mutate_rule_p mu (cond r)) (fun m => plift (fitted (constrain (d_constraint c) m) (dX D) (dy D))).
Fixpoint repeat_p {A} (n : nat) (m : prun A) : prun (list A) :=
  match n with O => pret [] | S n' => pthen m (fun x => pthen (repeat_p n' m) (fun xs => pret (x :: xs))) end.
Fixpoint es_loop_p (c : escfg) (D : denv L) (n : nat) (e : rule L) (w : list (rule L)) : prun (rule L) :=
  match n with
  | O => pret e
  | S n' =>
      let w := push (es_delay c) w e in
      pthen (repeat_p (es_lambda c) (mutant_p (es_d c) (es_mut c) D e)) (fun children =>
      match filter is_valid children with
      | [] => es_loop_p c D n' e w
      | valid =>
          pthen (match es_operator c with
                 | EsPlus => pst (let* s := pick_rules (es_sel c) (valid ++ [e]) 1 in lift (first_of s))
                 | EsComma | EsAnd => pst (let* s := pick_rules (es_sel c) valid 1 in lift (first_of s))
                 | EsOther => pret e
                 end) (fun e' =>
          match es_operator c with
          | EsAnd => if settled (es_delay c) w then plift (first_of w) else es_loop_p c D n' e' w
          | _ => es_loop_p c D n' e' w
          end)
      end)
  end.
Definition es_run (c : escfg) (D : denv L) (t : rule L * rng) : proc sigma (rule L) :=
  pbind (es_loop_p c D (es_iter c) (fst t) [] (snd t)) (fun ag => Ended (Ok (fst ag))).
(* base.py:75-99 optimize, with any way to run the tasks *)
Definition es_optimize_by (way : list (proc sigma (rule L)) -> option (res (list (rule L)))) (c : escfg) (D : denv L) (n_rules : nat) (kids : nat -> rng) (g : rng) : option (res (list (rule L)) * rng) :=
  match (let* xs := origins (d_origin (es_d c)) D n_rules in mmap (new_rule (es_d c) D) xs) g with
  | (Raise e, g') => Some (Raise e, g')
  | (Ok initial, g') =>
      option_map (fun r => (let? rs := r in filter_invalid (d_accept (es_d c)) (dy D) rs, g'))
        (way (map (es_run c D) (combine initial (map kids (seq 0 n_rules)))))
  end.
End Es.
Arguments mutant_p {L}. Arguments es_loop_p {L}. Arguments es_run {L}. Arguments es_optimize_by {L}.
