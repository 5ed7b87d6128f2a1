(* suprb/logging: metrics.py, default.py, stdout.py, combination.py; score() of sklearn's RegressorMixin. *)
From Coq Require Import String.
From Verif Require Import PyNum PyList PyMon PyRng PyStat M_Matching M_Rule M_RuleGen M_Mixing M_Fit.

(* ================= metrics.py ================= *)
(* 19-20 hamming_distance: a ^ b broadcasts arrays of length one and refuses other different lengths *)
Definition hamming_distance (a b : list bool) : res nat :=
  if Nat.eqb (length a) (length b) then Ok (count_true (map2 xorb a b))
  else match a, b with
       | [x], _ => Ok (count_true (map (xorb x) b))
       | _, [x] => Ok (count_true (map (xorb x) a))
       | _, _ => Raise ValueError
       end.
(* itertools.combinations(l, 2) *)
Fixpoint combinations2 {A} (l : list A) : list (A * A) :=
  match l with [] => [] | x :: l' => map (pair x) l' ++ combinations2 l' end.
(* 7-16 genome_diversity of a population with these genomes; numpy divides *)
Definition genome_diversity (genomes : list (list bool)) : res num :=
  let? ds := rmap (fun ab => hamming_distance (fst ab) (snd ab)) (combinations2 genomes) in
  match genomes with
  | [] => Raise IndexError
  | g :: _ => Ok (ndiv (Fin (qofnat (list_sum ds))) (Fin (qofnat (length g))))
  end.
(* 23-29 matched_training_samples; np.stack refuses match sets of different lengths, Python divides *)
Definition any_of (rows : list (list bool)) (i : nat) : bool := existsb (fun r => nth i r false) rows.
Definition matched_training_samples {L} (pool : list (rule L)) : res Q :=
  match pool with
  | [] => Ok 0
  | _ :: _ =>
      let? sets := rmap (fun r => let? a := get_att L r in Ok (match_set a)) pool in
      match sets with
      | [] => Raise IndexError
      | s :: _ =>
          if negb (forallb (fun r => Nat.eqb (length r) (length s)) sets) then Raise ValueError
          else if Nat.eqb (length s) 0 then Raise ZeroDivisionError
          else Ok (qofnat (count_true (map (any_of sets) (seq 0 (length s)))) / qofnat (length s))
      end
  end.

(* ================= numpy, sklearn ================= *)
(* np.percentile(l, q, method="median_unbiased"): numpy/lib/function_base.py _compute_virtual_index with alpha = beta = 1/3,
   _get_indexes, _lerp; NaN if there is one *)
Definition lerp (a b : num) (t : Q) : num :=
  let d := nsub b a in
  if qle (1 # 2) t then nsub b (nmul d (Fin (1 - t))) else nadd a (nmul d (Fin t)).
Definition percentile_mu (l : list num) (percent : Q) : res num :=
  match l with
  | [] => Raise IndexError
  | _ :: _ =>
      if existsb is_nan l then Ok NaN else
      let s := PyList.sort nlt l in
      let q := percent / 100 in
      let v := qofnat (length l) * q + ((1 # 3) + q * (1 - (1 # 3) - (1 # 3))) - 1 in
      let last := (length l - 1)%nat in
      let i := Z.to_nat (Qfloor v) in
      Ok (if qle (qofnat last) v then nth last s NaN
          else if qlt v 0 then nth 0 s NaN
          else lerp (nth i s NaN) (nth (S i) s NaN) (u01 v))
  end.
(* Python's min and max *)
Definition pymin_num (l : list num) : res num := of_option ValueError (pymax (fun a b => nlt b a) l).
Definition pymax_num (l : list num) : res num := of_option ValueError (pymax nlt l).
(* sum(l) / len(l) *)
Definition pymean (l : list num) : res num := match l with [] => Raise ZeroDivisionError | _ => Ok (nmean l) end.
(* sklearn.metrics.r2_score; NaN (with a warning) for fewer than two samples *)
Definition r2_score (y p : list Q) : res num :=
  if negb (Nat.eqb (length y) (length p)) then Raise ValueError
  else if Nat.ltb (length p) 2 then Ok NaN
  else
    let m := qsum y / qofnat (length y) in
    let numerator := qsum (map2 (fun a b => (a - b) * (a - b)) y p) in
    let denominator := qsum (map (fun a => (a - m) * (a - m)) y) in
    Ok (Fin (if qeq numerator 0 then 1 else if qeq denominator 0 then 0 else 1 - numerator / denominator)).

(* ================= default.py ================= *)
(* metrics_[key][step] = value.  Simplification: one dictionary with pairs as keys instead of a dictionary of dictionaries;
   params_ is left out. *)
Definition key : Type := string * nat.
Definition key_eqb (a b : key) : bool := String.eqb (fst a) (fst b) && Nat.eqb (snd a) (snd b).
Definition metrics : Type := list (key * num).
Fixpoint log_metric (m : metrics) (k : key) (v : num) : metrics :=
  match m with
  | [] => [(k, v)]
  | (k', w) :: m' => if key_eqb k' k then (k', v) :: m' else (k', w) :: log_metric m' k v
  end.
Fixpoint logged (m : metrics) (k : key) : option num :=
  match m with [] => None | (k', w) :: m' => if key_eqb k' k then Some w else logged m' k end.
(* 39-62 log_metric_stats; an exception leaves the metrics logged so far (nobody reads them: fit fails, too) *)
Definition log_stats (step : nat) (name : string) (vs : list num) (m : metrics) : res metrics :=
  let put (s : string) (v : num) (m : metrics) := log_metric m ((name ++ s)%string, step) v in
  let? v := pymin_num vs in let m := put "_min"%string v m in
  let? v := pymean vs in let m := put "_mean"%string v m in
  let? v := pymax_num vs in let m := put "_max"%string v m in
  let m := put "_median"%string (nmedian vs) m in
  let? v := percentile_mu vs 10 in let m := put "_percentile10"%string v m in
  let? v := percentile_mu vs 25 in let m := put "_percentile25"%string v m in
  let? v := percentile_mu vs 75 in let m := put "_percentile75"%string v m in
  let? v := percentile_mu vs 90 in Ok (put "_percentile90"%string v m).

Section Default.
Variable L : learner.
(* the generator of a random filter of the mixing model (mixing_model.py:11); score() draws from it.
   Simplification: its position at the time of logging is a parameter *)
Variable g : rng.

(* sklearn.base.RegressorMixin.score for Solution.predict *)
Definition elite_score (b : elite L) (X : matrix) (y : targets) : res num :=
  let? p := fst (sol_predict L (emix b) (ebits b) (epool b) X false g) in r2_score y p.

(* 35-89 log_iteration *)
Definition log_pool (step : nat) (pool : list (rule L)) (m : metrics) : res metrics :=
  let m := log_metric m ("pool_size"%string, step) (Fin (qofnat (length pool))) in
  match pool with
  | [] => Ok m
  | _ => let? fs := rmap (fun r => let? a := get_att L r in Ok (fitness a)) pool in log_stats step "pool_fitness" fs m
  end.
Definition log_population (step : nat) (pop : list satts) (m : metrics) : res metrics :=
  let m := log_metric m ("population_size"%string, step) (Fin (qofnat (length pop))) in
  let? m := log_stats step "population_fitness" (map sfitness pop) m in
  let? m := log_stats step "population_error" (map (fun a => Fin (serror a)) pop) m in
  log_stats step "population_complexity" (map (fun a => Fin (qofnat (scomplexity a))) pop) m.
Definition log_elitist (step : nat) (X : matrix) (y : targets) (b : elite L) (m : metrics) : res metrics :=
  let m := log_metric m ("elitist_fitness"%string, step) (sfitness (eatt b)) in
  let m := log_metric m ("elitist_error"%string, step) (Fin (serror (eatt b))) in
  let m := log_metric m ("elitist_complexity"%string, step) (Fin (qofnat (scomplexity (eatt b)))) in
  let? s := elite_score b X y in Ok (log_metric m ("training_score"%string, step) s).
Definition log_iteration (X : matrix) (y : targets) (step : nat) (pool : list (rule L)) (pop : res (list satts))
  (b : res (option (elite L))) (m : metrics) : res metrics :=
  let? m := log_pool step pool m in
  let? pop := pop in
  let? m := log_population step pop m in
  let? b := b in
  let? b := of_option AttributeError b in
  log_elitist step X y b m.
(* 29-33, 96-97 *)
Definition default_logger : logger L := mkLogger metrics (Ok []) log_iteration (fun _ _ _ _ m => Ok m).

(* ================= stdout.py ================= *)
(* what is printed: error, fitness, complexity and score for each iteration, the score at the end.
   The text itself and the progress bar are left out. *)
Inductive message : Type := Statistics (iteration : nat) (error fitness complexity score : num) | FinalScore (score : num).
Definition stdout_logger : logger L :=
  mkLogger (list message) (Ok [])
    (fun X y step _ _ b out =>
       let? b := b in
       let? b := of_option AttributeError b in
       let? s := elite_score b X y in
       Ok (out ++ [Statistics (S step) (Fin (serror (eatt b))) (sfitness (eatt b)) (Fin (qofnat (scomplexity (eatt b)))) s]))
    (fun X y _ m out =>
       let? _ := check_X X in
       let? s := match m with Learned b => elite_score b X y | Placeholder => r2_score y (repeat 0 (length X)) end in
       Ok (out ++ [FinalScore s])).

(* ================= combination.py ================= *)
(* 19-34: every logger in turn.  Simplification: names, the warning about nesting and the access to parameters are left out. *)
Definition both (G H : logger L) : logger L :=
  mkLogger (lst G * lst H)
    (let? g := linit G in let? h := linit H in Ok (g, h))
    (fun X y i p s b z => let? g := literation G X y i p s b (fst z) in let? h := literation H X y i p s b (snd z) in Ok (g, h))
    (fun X y p m z => let? g := lfinal G X y p m (fst z) in let? h := lfinal H X y p m (snd z) in Ok (g, h)).
Definition no_logger : logger L := mkLogger unit (Ok tt) (fun _ _ _ _ _ _ _ => Ok tt) (fun _ _ _ _ _ => Ok tt).
Fixpoint combined_logger (gs : list (logger L)) : logger L :=
  match gs with [] => no_logger | g :: gs' => both g (combined_logger gs') end.
End Default.
Arguments log_pool {L}. Arguments both {L}. Arguments combined_logger {L}. Arguments no_logger {L}.
Arguments log_iteration {L}. Arguments elite_score {L}. Arguments log_elitist {L}.
