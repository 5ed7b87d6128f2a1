(* Model of suprb/rule/initialization.py, suprb/optimizer/rule/mutation.py,
   suprb/optimizer/rule/crossover.py and estimate_bounds from suprb/utils.py:
   where conditions of rules come from. *)
From Verif Require Import PyNum PyList PyMon PyRng M_Matching.

(* ----- suprb/utils.py:41-42 estimate_bounds: column-wise min and max; numpy raises ValueError on
   an empty X ----- *)
Fixpoint col_min (x : row) (X : matrix) : row :=
  match X with [] => x | r :: X' => col_min (map2 qmin x r) X' end.
Fixpoint col_max (x : row) (X : matrix) : row :=
  match X with [] => x | r :: X' => col_max (map2 qmax x r) X' end.
Definition estimate_bounds (X : matrix) : res bounds :=
  match X with
  | [] => Raise ValueError
  | x :: X' => Ok (combine (col_min x X') (col_max x X'))
  end.

(* step sizes: a float, or an array of two (needed by CenterSpread and MinPercentage).
   Arrays with ordered or unordered bounds are not modelled. *)
Inductive sigma : Type := Scalar (s : Q) | Pair (s0 s1 : Q).
(* generation_operator.py:30-35: a float is rejected when the matching type is CenterSpread or MinPercentage *)
Definition sigma_error (t : mtype) : exn :=
  match t with OrderedBound | UnorderedBound => NotModelled | _ => AssertionError end.

(* np.sort(bounds, axis=1) on a (d, 2) array *)
Definition sort_row (b : Q * Q) : Q * Q := (qmin (fst b) (snd b), qmax (fst b) (snd b)).

Fixpoint pair_up (l : list Q) : list (Q * Q) :=      (* row-major (d, 2) array from 2d draws *)
  match l with a :: b :: l' => (a, b) :: pair_up l' | _ => [] end.

(* numpy rejects negative scales *)
Definition check_scale (s : Q) : res unit := if qlt s 0 then Raise ValueError else Ok tt.

(* ----- rule initialisation, initialization.py ----- *)
Inductive rule_init : Type :=
| MeanInit                                 (* 111-124 *)
| NormalInit (s : sigma)                   (* 127-163 *)
| HalfnormInit (s : Q).                    (* 166-195 *)

(* generate_matching_function for a given mean, dispatch 52-61 *)
Definition init_bounds (i : rule_init) (t : mtype) (mean : row) (g : rng) : res bounds * rng :=
  let d := length mean in
  match i, t with
  | MeanInit, (OrderedBound | UnorderedBound) => (Ok (combine mean mean), g)          (* 114-118 *)
  | MeanInit, _ => (Ok (map (fun c => (c, 0)) mean), g)                               (* 120-124 *)
  | NormalInit (Scalar s), (OrderedBound | UnorderedBound) =>                         (* 148-157 *)
      match check_scale s with
      | Raise e => (Raise e, g)
      | Ok _ =>
        (* size=(2, d): first all lower, then all upper draws, then transposed *)
        let '(q0, g1) := draws d g in
        let '(q1, g2) := draws d g1 in
        let bs := combine (map2 (fun m q => normal_of m s q) mean q0)
                          (map2 (fun m q => normal_of m s q) mean q1) in
        (Ok (match t with OrderedBound => map sort_row bs | _ => bs end), g2)
      end
  | NormalInit (Pair s0 s1), (CenterSpread | MinPercentage) =>                        (* 143-146, 159-163 *)
      match check_scale s0, check_scale s1 with
      | Ok _, Ok _ =>
        let '(q0, g1) := draws d g in
        let '(q1, g2) := draws d g1 in
        (Ok (combine (map2 (fun m q => normal_of m s0 q) mean q0)
                     (map (fun q => halfnorm_of (s1 / 2) q) q1)), g2)
      | _, _ => (Raise ValueError, g)
      end
  | NormalInit (Scalar _), _ => (Raise TypeError, g)     (* a float cannot be subscripted *)
  | NormalInit (Pair _ _), _ => (Raise NotModelled, g)
  | HalfnormInit s, (OrderedBound | UnorderedBound) =>                                (* 180-189 *)
      match check_scale s with
      | Raise e => (Raise e, g)
      | Ok _ =>
        let '(q0, g1) := draws d g in
        let '(q1, g2) := draws d g1 in
        (Ok (combine (map2 (fun m q => m - halfnorm_of s q) mean q0)
                     (map2 (fun m q => m + halfnorm_of s q) mean q1)), g2)
      end
  | HalfnormInit _, _ => (Raise TypeError, g)   (* 191-195 *)
  end.

(* RuleInit.__call__ 63-89 with a given mean: the condition of the new rule *)
Definition init_rule (i : rule_init) (t : mtype) (mean : row) (g : rng) : res matching * rng :=
  match init_bounds i t mean g with
  | (Ok bs, g') => (Ok (mkMatching t bs), g')
  | (Raise e, g') => (Raise e, g')
  end.
(* 80-82: without a mean the center is drawn uniformly from the bounds *)
Definition init_rule_nomean (i : rule_init) (t : mtype) (space : bounds) (g : rng) : res matching * rng :=
  let '(qs, g1) := draws (length space) g in
  init_rule i t (map2 (fun lh q => uniform_of (fst lh) (snd lh) q) space qs) g1.

(* ----- mutation, mutation.py ----- *)
Inductive mutation : Type :=
| MutNormal (s : sigma)             (* 69-89 *)
| MutHalfnorm (s : sigma)           (* 92-110 *)
| MutHalfnormIncrease (s : sigma)   (* 113-133 *)
| MutUniform (s : sigma)            (* 136-155 *)
| MutUniformIncrease (s : sigma).   (* 158-178 *)

Definition add_noise (bs noise : bounds) : bounds :=
  map2 (fun b n => (fst b + fst n, snd b + snd n)) bs noise.

(* what the operators write into the bounds array, before the sorting step of the ordered encoding *)
Definition noise_bounds (mu : mutation) (t : mtype) (bs : bounds) (g : rng) : res bounds * rng :=
  let d := length bs in
  match mu, t with
  (* Normal 72-89 *)
  | MutNormal (Scalar s), (OrderedBound | UnorderedBound) =>
      match check_scale s with
      | Raise e => (Raise e, g)
      | Ok _ => let '(q, g1) := draws (2 * d) g in
                (Ok (add_noise bs (pair_up (map (normal_of 0 s) q))), g1)
      end
  | MutNormal (Pair s0 s1), (CenterSpread | MinPercentage) =>
      match check_scale s0, check_scale s1 with
      | Ok _, Ok _ => let '(q0, g1) := draws d g in
                      let '(q1, g2) := draws d g1 in
                      (Ok (add_noise bs (combine (map (normal_of 0 s0) q0) (map (normal_of 0 s1) q1))), g2)
      | _, _ => (Raise ValueError, g)
      end
  | MutNormal _, _ => (Raise (sigma_error t), g)
  (* Halfnorm 95-110 *)
  | MutHalfnorm (Scalar s), (OrderedBound | UnorderedBound) =>
      match check_scale s with
      | Raise e => (Raise e, g)
      | Ok _ => let '(q0, g1) := draws d g in
                let '(q1, g2) := draws d g1 in
                let mean := map (fun b => (fst b + snd b) / 2) bs in
                (Ok (combine (map2 (fun m q => m - halfnorm_of (s / 2) q) mean q0)
                             (map2 (fun m q => m + halfnorm_of (s / 2) q) mean q1)), g2)
      end
  | MutHalfnorm (Pair _ _), (CenterSpread | MinPercentage) => (Raise TypeError, g)         (* 106-110 *)
  | MutHalfnorm _, _ => (Raise (sigma_error t), g)
  (* HalfnormIncrease 116-133 *)
  | MutHalfnormIncrease (Scalar s), OrderedBound =>
      match check_scale s with
      | Raise e => (Raise e, g)
      | Ok _ => let '(q0, g1) := draws d g in
                let '(q1, g2) := draws d g1 in
                (Ok (add_noise bs (combine (map (fun q => - halfnorm_of (s / 2) q) q0)
                                           (map (halfnorm_of (s / 2)) q1))), g2)
      end
  | MutHalfnormIncrease (Pair s0 s1), CenterSpread =>
      match check_scale s0, check_scale s1 with
      | Ok _, Ok _ => let '(q0, g1) := draws d g in
                      let '(q1, g2) := draws d g1 in
                      (Ok (add_noise bs (combine (map (normal_of 0 s0) q0)
                                                 (map (halfnorm_of (s1 / 2)) q1))), g2)
      | _, _ => (Raise ValueError, g)
      end
  | MutHalfnormIncrease (Pair s0 s1), MinPercentage =>
      match check_scale s0, check_scale s1 with
      | Ok _, Ok _ => let '(q0, g1) := draws d g in
                      let '(q1, g2) := draws d g1 in
                      (Ok (add_noise bs (combine (map (fun q => - halfnorm_of (s0 / 2) q) q0)
                                                 (map (halfnorm_of (s1 / 2)) q1))), g2)
      | _, _ => (Raise ValueError, g)
      end
  | MutHalfnormIncrease _, UnorderedBound => (Raise TypeError, g)     (* 116-117 *)
  | MutHalfnormIncrease _, _ => (Raise (sigma_error t), g)
  (* Uniform 139-155 *)
  | MutUniform (Scalar s), (OrderedBound | UnorderedBound) =>
      let '(q, g1) := draws (2 * d) g in
      (Ok (add_noise bs (pair_up (map (uniform_of (- s) s) q))), g1)
  | MutUniform (Pair s0 s1), (CenterSpread | MinPercentage) =>
      let '(q0, g1) := draws d g in
      let '(q1, g2) := draws d g1 in
      (Ok (add_noise bs (combine (map (uniform_of (- s0) s0) q0) (map (uniform_of (- s1) s1) q1))), g2)
  | MutUniform _, _ => (Raise (sigma_error t), g)
  (* UniformIncrease 161-178 *)
  | MutUniformIncrease (Scalar s), OrderedBound =>
      let '(q0, g1) := draws d g in
      let '(q1, g2) := draws d g1 in
      (Ok (add_noise bs (combine (map (fun q => - uniform_of 0 s q) q0)
                                 (map (uniform_of 0 s) q1))), g2)
  | MutUniformIncrease (Pair s0 s1), CenterSpread =>
      let '(q0, g1) := draws d g in
      let '(q1, g2) := draws d g1 in
      (Ok (add_noise bs (combine (map (fun q => - uniform_of (- s0) s0 q) q0)
                                 (map (uniform_of 0 s1) q1))), g2)
  | MutUniformIncrease (Pair s0 s1), MinPercentage =>
      let '(q0, g1) := draws d g in
      let '(q1, g2) := draws d g1 in
      (Ok (add_noise bs (combine (map (fun q => - uniform_of 0 s0 q) q0)
                                 (map (uniform_of 0 s1) q1))), g2)
  | MutUniformIncrease _, UnorderedBound => (Raise TypeError, g)      (* 161-162 *)
  | MutUniformIncrease _, _ => (Raise (sigma_error t), g)
  end.

(* rule.match.bounds = np.sort(rule.match.bounds, axis=1), last line of every ordered_bound method *)
Definition sort_if_ordered (t : mtype) (bs : bounds) : bounds :=
  match t with OrderedBound => map sort_row bs | _ => bs end.

(* RuleMutation.__call__ 23-30 on the condition *)
Definition mutate (mu : mutation) (m : matching) (g : rng) : res matching * rng :=
  match noise_bounds mu (mt m) (bnd m) g with
  | (Ok bs, g') => (Ok (mkMatching (mt m) (sort_if_ordered (mt m) bs)), g')
  | (Raise e, g') => (Raise e, g')
  end.

Definition with_sigma (mu : mutation) (s : sigma) : mutation :=
  match mu with
  | MutNormal _ => MutNormal s | MutHalfnorm _ => MutHalfnorm s
  | MutHalfnormIncrease _ => MutHalfnormIncrease s
  | MutUniform _ => MutUniform s | MutUniformIncrease _ => MutUniformIncrease s
  end.
(* SigmaRange 36-54: draw the step size, then mutate.  Its own sigma is the inherited float 0.1 and stays
   a float, so the step size is always scalar. *)
Definition sigma_range (mu : mutation) (low high : Q) (m : matching) (g : rng) : res matching * rng :=
  let '(q, g1) := draw g in
  mutate (with_sigma mu (Scalar (uniform_of low high q))) m g1.

(* ----- crossover, crossover.py:15-39 ----- *)
Definition bool_of (q : Q) : bool := Nat.eqb (index_of 2 q) 1.   (* choice([False, True]) *)
Definition rule_crossover (rate : Q) (a b : matching) (g : rng) : res (matching * matching) * rng :=
  let '(u, g1) := random g in
  if qlt u rate then
    match mt a with
    | OrderedBound =>                                        (* 28-39 *)
        let '(qs, g2) := draws (length (bnd a)) g1 in
        let mask := map bool_of qs in
        let pick := map2 (fun (m : bool) (xy : (Q * Q) * (Q * Q)) => if m then fst xy else snd xy) mask in
        (Ok (mkMatching (mt a) (pick (combine (bnd a) (bnd b))),
             mkMatching (mt b) (pick (combine (bnd b) (bnd a)))), g2)
    | _ => (Raise TypeError, g1)    (* 41-48: execute(A=, B=, random_state=) does not fit the signature *)
    end
  else (Ok (a, b), g1).
