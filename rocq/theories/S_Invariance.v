(* When two learning problems are the same up to the order of the samples, the way a sample is written down and the samples a rule does not match. *)
From Coq Require Import Permutation.
From Verif Require Import PyNum PyList PyMon M_Matching S_Matching M_Rule M_Mixing.

Definition same_num (a b : num) : Prop :=
  match a, b with Fin p, Fin q => p == q | PInf, PInf | NInf, NInf | NaN, NaN => True | _, _ => False end.
(* k are the members of l with the property, in their order *)
Inductive kept {A} (P : A -> Prop) : list A -> list A -> Prop :=
| kept_nil : kept P [] []
| kept_yes x l k : P x -> kept P l k -> kept P (x :: l) (x :: k)
| kept_no x l k : ~ P x -> kept P l k -> kept P (x :: l) k.
(* a sample with its features in another order: p lists the old positions *)
Definition rearranged {A} (default : A) (p : list nat) (x : list A) : list A := map (fun i => nth i x default) p.

Section Same.
Variable L : learner.
(* v x: how the second problem writes the sample x of d features *)
Variables (v : row -> row) (d : nat).

(* the second data set: the same samples with their targets, rewritten and in any order *)
Definition seen (s s' : list (row * Q)) : Prop := Permutation (map (fun p => (v (fst p), snd p)) s) s'.
(* two conditions for the same samples *)
Record same_box (m m' : matching) : Prop := {
  box_dim : length (bnd m) = d;
  box_dim' : length (bnd m') = d;
  box_covers : forall x, length x = d -> (covers m' (v x) <-> covers m x);
  box_volume : volume m' == volume m }.
Definition same_model (a b : option (Mdl L)) : Prop :=
  match a, b with Some a, Some b => forall x, length x = d -> mpred L b (v x) == mpred L a x | None, None => True | _, _ => False end.
Definition same_values (a b : option atts) : Prop :=
  match a, b with
  | Some a, Some b => is_fitted a = is_fitted b /\ same_num (error a) (error b) /\ same_num (fitness a) (fitness b) /\ experience a == experience b
  | None, None => True
  | _, _ => False
  end.
Record same_rule (r r' : rule L) : Prop := {
  rule_box : same_box (cond r) (cond r');
  rule_model : same_model (rmodel r) (rmodel r');
  rule_values : same_values (att r) (att r') }.
(* v keeps the number of features; the local model and the fitness do not depend on how samples are written and ordered *)
Record indifferent : Prop := {
  ind_length : forall x, length x = d -> length (v x) = d;
  ind_model : forall s s', Forall (fun p => length (fst p) = d) s -> seen s s' -> forall x, length x = d ->
    mpred L (train L (map fst s') (map snd s')) (v x) == mpred L (train L (map fst s) (map snd s)) x;
  ind_fitness : forall m m' e e', same_box m m' -> e == e' -> same_num (rfitness L m e) (rfitness L m' e') }.
(* the rule a condition becomes when it is fitted to the data *)
Definition fitted_from (X : matrix) (y : targets) (m : matching) (r : rule L) : Prop := rule_fit L (fresh_rule L m) X y = (Ok tt, r).
Definition same_measures (a b : satts) : Prop := serror a == serror b /\ scomplexity a = scomplexity b /\ sinput_size a = sinput_size b /\ same_num (sfitness a) (sfitness b).
End Same.
