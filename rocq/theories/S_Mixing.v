(* Specification vocabulary for predictions of solutions. *)
From Verif Require Import PyNum PyList M_Matching S_Matching M_Rule M_Mixing.

(* y is x moved into the range from lower to upper (the upper limit wins when they are crossed) *)
Inductive limited (lower upper : option Q) (x y : Q) : Prop :=
| lim_above u : upper = Some u -> u < x -> y == u -> limited lower upper x y
| lim_below l : lower = Some l -> x < l -> (forall u, upper = Some u -> l <= u) -> y == l -> limited lower upper x y
| lim_within : (forall l, lower = Some l -> l <= x) -> (forall u, upper = Some u -> x <= u) -> y == x -> limited lower upper x y
| lim_crossed l u : lower = Some l -> upper = Some u -> u < l -> y == u -> limited lower upper x y.
(* the experience that counts for samples with dim features *)
Definition counted (c : expcalc) (dim : nat) (x y : Q) : Prop :=
  let per_feature b := option_map (fun v => v * inject_Z (Z.of_nat dim)) b in
  match c with
  | ExpAsIs => y == x
  | CapExperience l u => limited l u x y
  | CapExperienceWithDimensionality l u => limited (per_feature l) (per_feature u) x y
  end.

Section Spec.
Variable L : learner.

(* a rule with an error: a positive one, or the infinite one of a rule that matched no sample *)
Definition has_error (r : rule L) : Prop := exists a, att r = Some a /\ (error a = PInf \/ exists e, error a = Fin e /\ 0 < e).
(* a rule with an error with a trained model, whose condition has the dimension of the samples *)
Definition ready (dim : nat) (r : rule L) : Prop :=
  length (bnd (cond r)) = dim /\ has_error r /\ exists mdl, rmodel r = Some mdl.
(* a rule with an error that never matched a sample and so has no trained model *)
Definition untrained (dim : nat) (r : rule L) : Prop :=
  length (bnd (cond r)) = dim /\ has_error r /\ rmodel r = None.
(* ... and does not match any of these samples either *)
Definition unheard (dim : nat) (X : matrix) (r : rule L) : Prop := untrained dim r /\ forall x, In x X -> ~ covers (cond r) x.

(* what the rule itself predicts for a sample *)
Definition says (r : rule L) (x : row) (v : Q) : Prop := exists mdl, rmodel r = Some mdl /\ v = mpred L mdl x.

(* the weight of a rule: experience (possibly capped) * weight / error, and nothing if the error is infinite *)
Definition has_weight (mx : mixing) (dim : nat) (r : rule L) (w : Q) : Prop :=
  exists a n, att r = Some a /\ counted (mexp mx) dim (experience a) n /\
    ((exists e, error a = Fin e /\ w == n * mweight mx / e) \/ (error a = PInf /\ w == 0)).

(* vs are the (weight, prediction) pairs of exactly those rules of rs that cover x, in order *)
Inductive votes (mx : mixing) (dim : nat) (x : row) : list (rule L) -> list (Q * Q) -> Prop :=
| votes_nil : votes mx dim x [] []
| votes_hit r rs w v vs :
    covers (cond r) x -> has_weight mx dim r w -> says r x v -> votes mx dim x rs vs ->
    votes mx dim x (r :: rs) ((w, v) :: vs)
| votes_miss r rs vs : ~ covers (cond r) x -> votes mx dim x rs vs -> votes mx dim x (r :: rs) vs.

Fixpoint total (vs : list (Q * Q)) : Q := match vs with [] => 0 | (w, _) :: vs' => w + total vs' end.
Fixpoint weighted (vs : list (Q * Q)) : Q := match vs with [] => 0 | (w, v) :: vs' => w * v + weighted vs' end.

(* the mixed prediction of a list of rules for one sample; weights that add up to nothing leave the sum undivided *)
Definition mixed (mx : mixing) (dim : nat) (rs : list (rule L)) (x : row) (out : Q) : Prop :=
  exists vs, votes mx dim x rs vs /\
    (total vs == 0 -> out == weighted vs) /\ (~ total vs == 0 -> out * total vs == weighted vs).
End Spec.
