(* Vocabulary for calls of fit: what the components were asked during the call. *)
From Verif Require Import PyNum PyList PyMon PyRng M_Matching M_Rule M_Mixing M_Fit.

(* ----- components that keep a record of the calls they received ----- *)
Section Record.
Variable L : learner.
Record dcall : Type := mkDcall { d_pool : list (rule L); d_elite : option (elite L); d_n : nat; d_seed : seedseq; d_out : res (list (rule L)) }.
Record ccall : Type := mkCcall { c_pool : list (rule L); c_max : nat; c_seed : seedseq; c_out : res unit; c_best : res (option solution); c_pops : res (list satts) }.
Definition recorded_d (D : discovery L) : discovery L :=
  mkDiscovery (dst D * list dcall)
    (fun X => let? d := dnew D X in Ok (d, []))
    (fun X y pool el n s d =>
       let '(r, (k, d')) := drun D X y pool el n s (fst d) in (r, (k, (d', snd d ++ [mkDcall pool el n s r])))).
Definition recorded_c (C : composition L) : composition L :=
  mkComposition (cst C * list ccall)
    (let? c := cnew C in Ok (c, []))
    (fun X y m pool s c =>
       let '(r, c') := crun C X y m pool s (fst c) in (r, (c', snd c ++ [mkCcall pool m s r (cbest C c') (cpopulation C c')])))
    (fun c => cbest C (fst c))
    (fun c => cpopulation C (fst c)).
Section Est.
Variables (D : discovery L) (C : composition L) (G : logger L).
Notation est := (est (recorded_d D) (recorded_c C) G).
Definition dcalls (e : est) : list dcall := match disc e with Some d => snd d | None => [] end.
Definition ccalls (e : est) : list ccall := match compo e with Some c => snd c | None => [] end.
End Est.
End Record.
Arguments recorded_d {L}. Arguments recorded_c {L}. Arguments dcalls {L D C G}. Arguments ccalls {L D C G}.
Arguments mkDcall {L}. Arguments d_pool {L}. Arguments d_elite {L}. Arguments d_n {L}. Arguments d_seed {L}. Arguments d_out {L}.
Arguments mkCcall {L}. Arguments c_pool {L}. Arguments c_max {L}. Arguments c_seed {L}. Arguments c_out {L}. Arguments c_best {L}. Arguments c_pops {L}.

Definition raised {A} (r : res A) : Prop := exists x, r = Raise x.
(* a table with at least one sample and one feature, one target each *)
Definition good_table (X : matrix) : Prop := exists d, d <> 0%nat /\ X <> [] /\ Forall (fun x => length x = d) X.
Definition good_data (X : matrix) (y : targets) : Prop := good_table X /\ length y = length X.
Definition zeros (X : matrix) : list Q := map (fun _ => 0) X.

(* ----- what is expected of components ----- *)
(* an exception, if any, is one of Python's *)
Definition python {A} (r : res A) : Prop := forall x, r = Raise x -> python_exn x = true.
(* a successful composition step leaves an elitist *)
Definition delivered {L} (c : ccall L) : Prop := c_out c = Ok tt -> exists b, c_best c = Ok (Some b).
Section Expect.
Variable L : learner.
(* never more rules than asked for *)
Definition modest (D : discovery L) : Prop :=
  forall X y pool el n s d rs, fst (drun D X y pool el n s d) = Ok rs -> (length rs <= n)%nat.
(* before the first step there is no elitist *)
Definition starts_empty (C : composition L) : Prop := forall c, cnew C = Ok c -> cbest C c = Ok None.
(* a logger that never raises *)
Definition quiet (G : logger L) : Prop :=
  (exists l, linit G = Ok l) /\ (forall X y i p s b l, exists l', literation G X y i p s b l = Ok l') /\
  (forall X y p m l, exists l', lfinal G X y p m l = Ok l').
End Expect.
Arguments modest {L}. Arguments starts_empty {L}. Arguments quiet {L}.
Definition seedable (r : rstate) : Prop := match r with NoSeed => True | IntSeed z => (0 <= z)%Z | _ => False end.

(* ----- what the record says ----- *)
(* the rules found by a list of calls, in order *)
Definition out_of {L} (c : dcall L) : list (rule L) := match d_out c with Ok rs => rs | Raise _ => [] end.
Definition found {L} (calls : list (dcall L)) : list (rule L) := concat (map out_of calls).
(* the stream of child k of the root seed *)
Definition child_stream (z : Z) (k : nat) : stream := mkStream z [k].
(* f is the fitness of the elitist after this composition step *)
Definition elite_fitness {L} (c : ccall L) (f : num) : Prop := exists b, c_best c = Ok (Some b) /\ f = sfitness (smeasured b).
(* the last k entries all satisfy P *)
Definition last_all {A} (P : A -> Prop) (k : nat) (l : list A) : Prop := exists before tail, l = before ++ tail /\ length tail = k /\ Forall P tail.
(* the data are usable, the seed is a number or missing, the components can be set up *)
Definition ready {L} (D : discovery L) (C : composition L) (G : logger L) (p : params) (X : matrix) (y : targets) : Prop :=
  good_data X y /\ seedable (random_state p) /\ (exists d, dnew D X = Ok d) /\ (exists c, cnew C = Ok c) /\ exists l, linit G = Ok l.
(* the number all streams of a fit are derived from *)
Definition root_seed (os : Z) (r : rstate) : Z := match r with IntSeed v => v | _ => os end.
(* some component raised during the call *)
Definition some_call_raised {L} {D : discovery L} {C : composition L} {G : logger L} (e : est (recorded_d D) (recorded_c C) G) : Prop :=
  (exists c, In c (dcalls e) /\ raised (d_out c)) \/ (exists c, In c (ccalls e) /\ raised (c_out c)).
Definition all_python {L} {D : discovery L} {C : composition L} {G : logger L} (e : est (recorded_d D) (recorded_c C) G) : Prop :=
  Forall (fun c => python (d_out c)) (dcalls e) /\ Forall (fun c => python (c_out c)) (ccalls e).
(* the fitness has not grown by more than d *)
Definition not_grown (d : Q) (before now : num) : Prop := nlt (Fin d) (nsub now before) = false.
(* the fitness of each iteration compared with the iteration before it *)
Fixpoint increments (before : num) (fs : list num) : list (num * num) := match fs with [] => [] | f :: fs' => (before, f) :: increments f fs' end.
(* at the end of fs the last k iterations did not grow *)
Definition stagnates (d : Q) (k : nat) (fs : list num) : Prop := last_all (fun bf => not_grown d (fst bf) (snd bf)) k (increments (Fin 0) fs).
(* k0 discoveries were made before the loop.  Discovery k was given the model that the composition before it left as its best, with the rules found so far
   as its pool; when there was no composition before it, the best model of the composition as set up *)
Definition handed_on {L} (C : composition L) (k0 : nat) (ccs : list (ccall L)) (k : nat) (call : dcall L) : Prop :=
  match (k - k0)%nat with
  | O => exists c b, cnew C = Ok c /\ cbest C c = Ok b /\ d_elite call = option_map (with_pool (d_pool call)) b
  | S j => exists cc b, nth_error ccs j = Some cc /\ c_best cc = Ok b /\ d_elite call = option_map (with_pool (d_pool call)) b
  end.
