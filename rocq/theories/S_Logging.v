(* Vocabulary for the logged metrics. *)
From Coq Require Import String.
From Verif Require Import PyNum PyList PyMon PyRng M_Matching M_Rule M_Mixing M_Fit S_Fit M_Logging.

(* sample i is in the match set of some rule *)
Definition covered {L} (pool : list (rule L)) (i : nat) : Prop :=
  exists r a, In r pool /\ att r = Some a /\ nth_error (match_set a) i = Some true.
(* all rules were fitted on n samples *)
Definition fitted_on {L} (pool : list (rule L)) (n : nat) : Prop :=
  Forall (fun r => exists a, att r = Some a /\ length (match_set a) = n) pool.
(* number of genomes with bit j set *)
Definition ones (j : nat) (gs : list (list bool)) : nat := length (filter (fun g => nth j g false) gs).

(* one call of log_iteration for each composition step, numbered from k *)
Inductive logged_steps {L} (G : logger L) (X : matrix) (y : targets) : nat -> list (ccall L) -> lst G -> lst G -> Prop :=
| Logged_none k l : logged_steps G X y k [] l l
| Logged_step k c cs l l1 l2 :
    literation G X y k (c_pool c) (c_pops c) (let? s := c_best c in Ok (option_map (with_pool (c_pool c)) s)) l = Ok l1 ->
    logged_steps G X y (S k) cs l1 l2 -> logged_steps G X y k (c :: cs) l l2.

(* the same estimator apart from what the logger keeps *)
Definition same_but_logs {L} {D : discovery L} {C : composition L} {G H : logger L} (a : est D C G) (b : est D C H) : Prop :=
  step a = step b /\ counter a = counter b /\ previous a = previous b /\ is_error a = is_error b /\ M_Fit.is_fitted a = M_Fit.is_fitted b /\
  elitist a = elitist b /\ pool a = pool b /\ dseeds a = dseeds b /\ cseeds a = cseeds b /\ disc a = disc b /\ compo a = compo b /\ max_len a = max_len b.

(* x is an exception that some call of the logger raises *)
Definition logger_raises {L} (G : logger L) (x : exn) : Prop :=
  linit G = Raise x \/ (exists X y i p s b l, literation G X y i p s b l = Raise x) \/ (exists X y p m l, lfinal G X y p m l = Raise x).

(* a sorted list read at a fractional position, linear in between *)
Definition reading (s : list Q) (v : Q) : Q :=
  let last := (length s - 1)%nat in
  let i := Z.to_nat (Qfloor v) in
  if qle (qofnat last) v then nth last s 0 else if qlt v 0 then nth 0 s 0
  else nth i s 0 + (nth (S i) s 0 - nth i s 0) * u01 v.
(* where the share q lies among n values, for the median-unbiased estimate *)
Definition place (n : nat) (q : Q) : Q := qofnat n * q + ((1 # 3) + q * (1 - (1 # 3) - (1 # 3))) - 1.
Definition percentile_of (l : list Q) (q : Q) : Q := reading (PyList.sort qlt l) (place (length l) q).
