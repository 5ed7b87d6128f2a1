(* Model of suprb/solution/mixing_model.py. *)
From Verif Require Import PyNum PyList PyMon PyRng M_Matching M_Rule.

Section Mixing.
Variable L : learner.

(* attribute access on a rule that may be unfitted *)
Definition get_att (r : rule L) : res atts := of_option AttributeError (att r).
Definition fitness_of (r : rule L) : res num := let? a := get_att r in Ok (fitness a).
Definition fit_or_nan (r : rule L) : num := match att r with Some a => fitness a | None => NaN end.

(* subpopulation filters, mixing_model.py:8-40 *)
Inductive sfilter : Type :=
| KeepAll                     (* FilterSubpopulation 13-14 *)
| NBestFitness (n : nat)      (* 22-26 *)
| NRandom (n : nat)           (* 29-32 *)
| RouletteWheel (n : nat).    (* 35-40 *)

(* choice(l, size=k, p=w, replace=False): any k distinct entries of positive weight, in any order;
   too few of those is a ValueError *)
Definition apply_filter (f : sfilter) (rs : list (rule L)) (g : rng) : res (list (rule L)) * rng :=
  match f with
  | KeepAll => (Ok rs, g)
  | NBestFitness n =>
      (let? _ := rmap fitness_of rs in
       Ok (last_n n (sort (fun a b => nlt (fit_or_nan a) (fit_or_nan b)) rs)), g)
  | NRandom n => sample rs (Nat.min (length rs) n) g
  | RouletteWheel n =>
      match rmap fitness_of rs with
      | Raise e => (Raise e, g)
      | Ok fs =>
        let total := fold_left nadd fs (Fin 0) in
        let ws := map (fun x => ndiv x total) fs in
        if forallb (nle (Fin 0)) ws && forallb is_fin ws then
          sample (compress rs (map (nlt (Fin 0)) ws)) (Nat.min (length rs) n) g
        else (Raise ValueError, g)
      end
  end.

(* experience, 43-66; None stands for the infinite default bound *)
Inductive expcalc : Type :=
| ExpAsIs
| CapExperience (lower upper : option Q)
| CapExperienceWithDimensionality (lower upper : option Q).
Definition cap (lower upper : option Q) (x : Q) : Q :=
  let x1 := match lower with Some l => qmax x l | None => x end in
  match upper with Some u => qmin x1 u | None => x1 end.
Definition scale_bound (b : option Q) (dim : nat) : option Q := option_map (fun l => l * qofnat dim) b.
Definition calc_exp (c : expcalc) (dim : nat) (x : Q) : Q :=
  match c with
  | ExpAsIs => x
  | CapExperience l u => cap l u x
  | CapExperienceWithDimensionality l u => cap (scale_bound l dim) (scale_bound u dim) x
  end.

Record mixing : Type := mkMixing { mfilter : sfilter; mexp : expcalc; mweight : Q }.

(* _get_taus 125-130: (1 / error) * (experience * weight).  1/inf is 0; an error of 0 or NaN does not occur
   (errors are floored at 1e-4) and is outside the model. *)
Definition tau (mx : mixing) (dim : nat) (r : rule L) : res Q :=
  let? a := get_att r in
  let? inv := match error a with
              | Fin e => if qeq e 0 then Raise NotModelled else Ok (1 / e)
              | PInf => Ok 0
              | _ => Raise NotModelled
              end in
  Ok (inv * (calc_exp (mexp mx) dim (experience a) * mweight mx)).

(* row = np.zeros(n); row[flags] = vals *)
Fixpoint fill (flags : list bool) (vals : list Q) : list Q :=
  match flags with
  | [] => []
  | true :: flags' => match vals with v :: vals' => v :: fill flags' vals' | [] => 0 :: fill flags' [] end
  | false :: flags' => 0 :: fill flags' vals
  end.
Definition scatter (n : nat) (flags : list bool) (vals : list Q) : res (list Q) :=
  if negb (Nat.eqb (length flags) n) then Raise IndexError
  else if Nat.eqb (length vals) (count_true flags) then Ok (fill flags vals)
  else match vals with
       | [v] => Ok (fill flags (repeat v (count_true flags)))      (* broadcast *)
       | _ => Raise ValueError
       end.

(* _get_local_pred 107-123, one rule: its match flags and its row of predictions *)
Definition local_pred (X : matrix) (cache : bool) (r : rule L) : res (list bool * list Q) :=
  if cache then
    let? a := get_att r in
    let? row := scatter (length X) (match_set a) (pred a) in Ok (match_set a, row)
  else
    let? ms := match_call (cond r) X in
    if existsb (fun b => b) ms then
      let? p := rule_predict L r (compress X ms) in
      let? row := scatter (length X) ms p in Ok (ms, row)
    else Ok (ms, repeat 0 (length X)).

(* np.sum(..., axis=0) *)
Definition vsum (n : nat) (rows : list (list Q)) : list Q := fold_right (map2 Qplus) (repeat 0 n) rows.
Definition row_len (X : matrix) : nat := match X with [] => 0%nat | x :: _ => length x end.

(* __call__ 87-105 *)
Definition mix (mx : mixing) (X : matrix) (rs : list (rule L)) (cache : bool) : res (list Q) :=
  let n := length X in
  let? lps := rmap (local_pred X cache) rs in
  let? taus := rmap (tau mx (row_len X)) rs in
  let pred := vsum n (map2 (fun lp t => map (fun v => v * t) (snd lp)) lps taus) in
  (* _get_tau_sum 132-141 *)
  let? local_taus := rmap (fun lt => scatter n (fst lt) [snd lt]) (combine (map fst lps) taus) in
  let tau_sum := map (fun s => if qeq s 0 then 1 else s) (vsum n local_taus) in
  Ok (map2 Qdiv pred tau_sum).
Definition mixing_call (mx : mixing) (X : matrix) (rs : list (rule L)) (cache : bool) (g : rng) : res (list Q) * rng :=
  match rs with
  | [] => (Ok (repeat 0 (length X)), g)
  | _ => match apply_filter (mfilter mx) rs g with
         | (Ok rs', g') => (mix mx X rs' cache, g')
         | (Raise e, g') => (Raise e, g')
         end
  end.

(* ----- suprb/solution/base.py ----- *)
(* subpopulation 75-79 *)
Definition subpopulation (genome : list bool) (pool : list (rule L)) : res (list (rule L)) :=
  let? _ := assert_ (Nat.eqb (length genome) (length pool)) in Ok (compress pool genome).
(* predict 63-73 *)
Definition sol_predict (mx : mixing) (genome : list bool) (pool : list (rule L)) (X : matrix) (cache : bool) (g : rng)
  : res (list Q) * rng :=
  match subpopulation genome pool with
  | Ok rs => mixing_call mx X rs cache g
  | Raise e => (Raise e, g)
  end.

(* fitted attributes of a solution, fit 54-61.  The fitness function sees error, complexity and input size. *)
Record satts : Type := mkSatts { serror : Q; scomplexity : nat; sinput_size : nat; sfitness : num }.
Definition sol_fit (mx : mixing) (sfit : Q -> nat -> nat -> num)
  (genome : list bool) (pool : list (rule L)) (X : matrix) (y : targets) (g : rng) : res satts * rng :=
  match sol_predict mx genome pool X true g with
  | (Raise e, g') => (Raise e, g')
  | (Ok p, g') =>
      if negb (Nat.eqb (length y) (length p)) || Nat.eqb (length y) 0 then (Raise ValueError, g')   (* mean_squared_error *)
      else
        let e := floor_error (mse y p) in
        (Ok (mkSatts e (count_true genome) (length genome) (sfit e (count_true genome) (length genome))), g')
  end.
End Mixing.
