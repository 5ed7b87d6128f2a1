(* Rule discovery: suprb/optimizer/rule/{base,acceptance,origin,selection}.py, es/es.py, rs/rs.py.
   Rules are values here: every rule of a run is fresh, a mutated clone or a crossed copy, and is not changed after fit
   (sharing of conditions: M_RuleHeap).  Random numbers the elitist's mixing model draws come from the same tape. *)
From Verif Require Import PyNum PyList PyMon PyRng PyStat M_Matching M_Rule M_RuleGen M_Mixing M_GenomeOps.

(* ================= selection.py, for any kind of candidates ================= *)
Inductive rselection : Type := RFittest | RRoulette | RNondominated | RRandom.
Section Select.
Context {A : Type}.
(* fitness_, error_, volume_, and object identity *)
Variables (fit err : A -> num) (vol : A -> Q) (same : A -> A -> bool).

(* list.remove *)
Fixpoint remove_first (x : A) (l : list A) : list A :=
  match l with [] => [] | y :: l' => if same x y then l' else y :: remove_first x l' end.
Definition beats (a b : A) : bool := nlt (err a) (err b) && qlt (vol b) (vol a).
(* selection.py:51-63: for can in candidates, where the loop body may remove from the list it runs over; i: the position of the
   iterator; k bounds the number of rounds *)
Fixpoint nd_scan (k : nat) (cands : list A) (i : nat) (r : A) (add : bool) : list A * bool :=
  match k with
  | O => (cands, add)
  | S k' =>
      match nth_error cands i with
      | None => (cands, add)
      | Some can =>
          if beats can r then (cands, false)
          else if beats r can then nd_scan k' (remove_first can cands) (S i) r true
          else nd_scan k' cands (S i) r true
      end
  end.
(* 47-66 *)
Definition nd_step (cands : list A) (r : A) : list A :=
  let '(c, add) := nd_scan (length cands) cands 0 r false in if add then c ++ [r] else c.
Definition nd_front (rules : list A) : res (list A) :=
  match rules with [] => Raise IndexError | r :: rest => Ok (fold_left nd_step rest [r]) end.

(* 21-23 *)
Definition fittest_n (rules : list A) (size : nat) : list A := firstn size (sort_desc (fun a b => nlt (fit a) (fit b)) rules).
Definition select_rules (s : rselection) (rules : list A) (size : nat) : St rng (list A) :=
  match s with
  | RFittest => ret (fittest_n rules size)
  | RRoulette =>                                                                      (* 29-41 *)
      let rules' := filter (fun r => negb (neqb (fit r) NInf)) rules in
      let draw := match rules' with
                  | [] => choices rules size
                  | _ => let fs := map fit rules' in choices_num rules' size (map (fun f => ndiv f (nsum fs)) fs)
                  end in
      fun g => match draw g with (Raise ValueError, g') => (Ok [], g') | r => r end
  | RNondominated => let* c := lift (nd_front rules) in choices c size               (* 47-68 *)
  | RRandom => choices rules size                                                     (* 73-74 *)
  end.
End Select.

(* ================= acceptance.py ================= *)
Inductive acceptance : Type := MaxError (m : num) | Variance (beta : Q).
(* ================= origin.py ================= *)
Inductive origin : Type := UniformInput | UniformSamples | Matching (use_elitist : bool) | SquaredError (use_elitist : bool).

Section Discovery.
Variable L : learner.
Implicit Types r : rule L.

(* acceptance.py:23-24, 36-41; a boolean index of the wrong length is an IndexError *)
Definition accept (a : acceptance) r (y : targets) : res bool :=
  let? t := get_att L r in
  match a with
  | MaxError m => Ok (nle (error t) m)
  | Variance beta =>
      if qlt (experience t) 1 then Ok false
      else if negb (Nat.eqb (length (match_set t)) (length y)) then Raise IndexError
      else let ly := compress y (match_set t) in
           Ok (nle (error t) (ndiv (Fin (qsum (map (fun v => v * v) ly))) (Fin (qofnat (length ly) * beta))))
  end.
(* base.py:56-62 _filter_invalid_rules (None is never produced) *)
Fixpoint filter_invalid (a : acceptance) (y : targets) (rs : list (rule L)) : res (list (rule L)) :=
  match rs with
  | [] => Ok []
  | r :: rs' => let? ok := accept a r y in let? rest := filter_invalid a y rs' in Ok (if ok then r :: rest else rest)
  end.

(* what discovery knows: data, pool_, the genome of elitist_ and its mixing model *)
Record denv : Type := mkDenv { dX : matrix; dy : targets; dpool : list (rule L); delite : option (list bool); dmix : mixing }.

(* origin.py:85-86: how many of the rules do not match each sample; np.stack needs equal lengths *)
Definition miss_counts (n : nat) (sets : list (list bool)) : list Q :=
  map (fun i => qofnat (count_true (map (fun ms => negb (nth i ms false)) sets))) (seq 0 n).
Definition matching_weights (rs : list (rule L)) : res (list Q) :=
  let? sets := rmap (fun r => let? t := get_att L r in Ok (match_set t)) rs in
  match sets with
  | [] => Raise ValueError
  | s :: rest => if forallb (fun t => Nat.eqb (length t) (length s)) rest then Ok (miss_counts (length s) sets) else Raise ValueError
  end.
(* origin.py:92-101; without an elitist there is nobody to ask.  Simplification: a random filter of the elitist's mixing model reads on
   from the generator of the discovery, not from one of its own (mixing_model.py:11). *)
Definition squared_weights (D : denv) (use : bool) : St rng (list Q) :=
  match delite D with
  | None => raise AttributeError
  | Some bits =>
      let* p := sol_predict L (dmix D) (if use then bits else repeat true (length (dpool D))) (dpool D) (dX D) false in
      if Nat.eqb (length p) (length (dy D)) then ret (map2 (fun a b => (a - b) * (a - b)) p (dy D)) else raise ValueError
  end.
(* 52-76 RouletteWheelOrigin.__call__ *)
Definition subgroup (D : denv) (use : bool) : res (list (rule L)) :=
  match delite D with
  | Some bits => if use then subpopulation L bits (dpool D) else Ok (dpool D)
  | None => Ok (dpool D)
  end.
Definition probabilities (ws : list Q) : option (list Q) :=
  let total := qsum ws in if qeq total 0 then None else Some (map (fun w => w / total) ws).
Definition wheel (D : denv) (use : bool) (weights : list (rule L) -> St rng (list Q)) (n : nat) : St rng (list row) :=
  let* rs := lift (subgroup D use) in
  let* p := match rs with [] => ret None | _ => let* ws := weights rs in ret (probabilities ws) end in
  match p with
  | None => choices (dX D) n
  | Some ws => choices_p (dX D) n ws
  end.
(* 31-32; np.min and np.max over an empty X raise *)
Definition uniform_input (X : matrix) (n : nat) : St rng (list row) :=
  let* bs := lift (estimate_bounds X) in
  (fix go k := match k with
               | O => ret []
               | S k' => let* x := (fun g => let '(qs, g') := draws (length bs) g in (Ok (map2 (fun lh q => uniform_of (fst lh) (snd lh) q) bs qs), g')) in
                         let* xs := go k' in ret (x :: xs)
               end) n.
(* 31-76 *)
Definition origins (o : origin) (D : denv) (n : nat) : St rng (list row) :=
  match o with
  | UniformInput => uniform_input (dX D) n
  | UniformSamples => choices (dX D) n
  | Matching use => wheel D use (fun rs => lift (matching_weights rs)) n
  | SquaredError use => wheel D use (fun _ => squared_weights D use) n
  end.

(* ================= shared parts ================= *)
Record dcfg : Type := mkDcfg { d_type : mtype; d_init : rule_init; d_constraint : constraint; d_accept : acceptance; d_origin : origin }.
(* rule.fit(X, y) *)
Definition fitted (m : matching) (X : matrix) (y : targets) : res (rule L) :=
  match rule_fit L (fresh_rule L m) X y with (Ok _, r) => Ok r | (Raise e, _) => Raise e end.
(* constraint(init(mean=origin)).fit(X, y) *)
Definition new_rule (c : dcfg) (D : denv) (x : row) : St rng (rule L) :=
  let* m := init_rule (d_init c) (d_type c) x in lift (fitted (constrain (d_constraint c) m) (dX D) (dy D)).
(* mutation.py: an operator, or SigmaRange around one *)
Inductive rmutation : Type := Mut (mu : mutation) | MutRange (mu : mutation) (low high : Q).
Definition mutate_rule (mu : rmutation) (m : matching) : St rng matching :=
  match mu with Mut mu => mutate mu m | MutRange mu low high => sigma_range mu low high m end.
(* constraint(mutation(rule)).fit(X, y); mutation works on rule.clone() *)
Definition mutant (c : dcfg) (mu : rmutation) (D : denv) r : St rng (rule L) :=
  let* m := mutate_rule mu (cond r) in lift (fitted (constrain (d_constraint c) m) (dX D) (dy D)).
(* is_fitted_ and experience_ > 0 *)
Definition is_valid r : bool := match att r with Some t => is_fitted t && qlt 0 (experience t) | None => false end.
Definition rfit r : num := fit_or_nan L r.
Definition rerr r : num := match att r with Some t => error t | None => NaN end.
(* the candidates of one call are different objects, told apart by their position *)
Definition pick_rules (s : rselection) (rs : list (rule L)) (size : nat) : St rng (list (rule L)) :=
  let* ks := select_rules (fun k => rfit (snd k)) (fun k => rerr (snd k)) (fun k => rule_volume L (snd k)) (fun a b => Nat.eqb (fst a) (fst b))
               s (combine (seq 0 (length rs)) rs) size in
  ret (map snd ks).

(* ================= es/es.py ================= *)
Inductive es_op : Type := EsPlus | EsComma | EsAnd | EsOther.
Record escfg : Type := mkEs { es_d : dcfg; es_iter : nat; es_lambda : nat; es_operator : es_op; es_delay : nat; es_mut : rmutation; es_sel : rselection }.
(* 86-87, in the constructor *)
Definition es_new (c : escfg) : res escfg :=
  match es_operator c with EsAnd => let? _ := assert_ (Nat.ltb (es_delay c) (es_iter c)) in Ok c | _ => Ok c end.
(* deque(maxlen=n).append *)
Definition push {A} (n : nat) (w : list A) (x : A) : list A := let w' := w ++ [x] in skipn (length w' - n) w'.
(* 133: no elitist of the window is fitter than the oldest *)
Definition settled (n : nat) (w : list (rule L)) : bool :=
  Nat.eqb (length w) n && match w with [] => true | e0 :: _ => forallb (fun e => nle (rfit e) (rfit e0)) w end.
Definition first_of {A} (l : list A) : res A := of_option IndexError (nth_error l 0).
Fixpoint repeat_m {A} (n : nat) (m : St rng A) : St rng (list A) :=
  match n with O => ret [] | S n' => let* x := m in let* xs := repeat_m n' m in ret (x :: xs) end.
(* 99-137; e: elitist, w: elitists *)
Fixpoint es_loop (c : escfg) (D : denv) (n : nat) (e : rule L) (w : list (rule L)) : St rng (rule L) :=
  match n with
  | O => ret e
  | S n' =>
      let w := push (es_delay c) w e in
      let* children := repeat_m (es_lambda c) (mutant (es_d c) (es_mut c) D e) in
      match filter is_valid children with
      | [] => es_loop c D n' e w
      | valid =>
          let* e' := match es_operator c with
                     | EsPlus => let* s := pick_rules (es_sel c) (valid ++ [e]) 1 in lift (first_of s)
                     | EsComma | EsAnd => let* s := pick_rules (es_sel c) valid 1 in lift (first_of s)
                     | EsOther => ret e
                     end in
          match es_operator c with
          | EsAnd => if settled (es_delay c) w then lift (first_of w) else es_loop c D n' e' w
          | _ => es_loop c D n' e' w
          end
      end
  end.
(* base.py:75-99 ParallelSingleRuleDiscovery.optimize.  kids: the generators of the spawned seeds.  The results come
   back in the order of the tasks; a task touches nothing but its own generator. *)
Definition es_task (c : escfg) (D : denv) (t : rule L * rng) : res (rule L) := fst (es_loop c D (es_iter c) (fst t) [] (snd t)).
Definition es_optimize (c : escfg) (D : denv) (n_rules : nat) (kids : nat -> rng) : St rng (list (rule L)) :=
  let* xs := origins (d_origin (es_d c)) D n_rules in
  let* initial := mmap (new_rule (es_d c) D) xs in
  let* rs := lift (rmap (es_task c D) (combine initial (map kids (seq 0 n_rules)))) in
  lift (filter_invalid (d_accept (es_d c)) (dy D) rs).

(* ================= rs/rs.py:67-96 ================= *)
Record rscfg : Type := mkRs { rs_d : dcfg; rs_generated : nat; rs_sel : rselection }.
Definition rs_one (c : rscfg) (D : denv) : St rng (list (rule L)) :=
  let* xs := origins (d_origin (rs_d c)) D (rs_generated c) in
  let* rules := mmap (new_rule (rs_d c) D) xs in
  pick_rules (rs_sel c) rules 1.
Definition rs_optimize (c : rscfg) (D : denv) (n_rules : nat) : St rng (list (rule L)) :=
  let* out := repeat_m n_rules (rs_one c D) in
  lift (filter_invalid (d_accept (rs_d c)) (dy D) (concat out)).
End Discovery.
Arguments mkDenv {L}. Arguments dX {L}. Arguments dy {L}. Arguments dpool {L}. Arguments delite {L}. Arguments dmix {L}.
Arguments accept {L}. Arguments filter_invalid {L}. Arguments matching_weights {L}. Arguments origins {L}. Arguments wheel {L}.
Arguments subgroup {L}. Arguments squared_weights {L}. Arguments fitted {L}. Arguments new_rule {L}. Arguments mutant {L}. Arguments is_valid {L}. Arguments rfit {L}. Arguments rerr {L}.
Arguments pick_rules {L}. Arguments settled {L}. Arguments es_loop {L}. Arguments es_task {L}. Arguments es_optimize {L}. Arguments rs_one {L}. Arguments rs_optimize {L}.
