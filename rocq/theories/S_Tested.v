(* Settings that fit notices to be unusable. *)
From Coq Require Import Permutation.
From Verif Require Import PyNum PyList PyMon PyRng M_Matching M_Rule M_RuleGen M_Mixing M_Discovery M_Fit M_Shipped.

Definition centred (t : mtype) : Prop := match t with CenterSpread | MinPercentage => True | _ => False end.
(* arrays of step sizes are only given where the representation has two kinds of parameters *)
Definition init_suits (i : rule_init) (t : mtype) : Prop := match i with NormalInit (Pair _ _) => centred t | _ => True end.
Definition mutation_suits (mu : mutation) (t : mtype) : Prop :=
  match mu with
  | MutNormal s | MutHalfnorm s | MutHalfnormIncrease s | MutUniform s | MutUniformIncrease s => match s with Pair _ _ => centred t | Scalar _ => True end
  end.
(* the crossover of rules: with a rate between 0 and 1 it would depend on the draws whether a representation without a variant is met *)
Definition crossing_suits (rate : Q) (t : mtype) : Prop := t = OrderedBound \/ rate <= 0 \/ 1 <= rate.
Definition crossing_works (rate : Q) (t : mtype) : Prop := t = OrderedBound \/ rate <= 0.
(* the estimator is marked as failed, has no rules, and answers zeros *)
Definition gave_up {L} {D : discovery L} {C : composition L} {G : logger L} (d : nat) (e : est D C G) : Prop :=
  is_error e = true /\ pool e = [] /\ forall X g, X <> [] -> Forall (fun x => length x = d) X -> predict e X g = (Ok (repeat 0 (length X)), g).
(* the estimator has a model that predicts every table *)
Definition learned_model {L} {D : discovery L} {C : composition L} {G : logger L} (d : nat) (e : est D C G) : Prop :=
  is_error e = false /\ (exists b, elitist e = Some (Learned b)) /\
  forall X g, X <> [] -> Forall (fun x => length x = d) X -> exists z g', predict e X g = (Ok z, g') /\ length z = length X.

(* tests/test_mixing_model.py:14-38: rules of which only three attributes are set, numbered from 0, in any order *)
Definition numbered {L} (i : nat) (r : rule L) : Prop := exists a, att r = Some a /\ fitness a = Fin (Z.of_nat i # 100) /\ experience a = qofnat i /\ error a = Fin (1 # 100).
Definition shuffled {L} (n : nat) (rs : list (rule L)) : Prop := exists ordered, Permutation rs ordered /\ Forall2 numbered (seq 0 n) ordered.
(* the experiences a calculation makes of those of the rules *)
Definition experiences {L} (c : expcalc) (dim : nat) (rs : list (rule L)) : list Q := map (fun r => match att r with Some a => calc_exp c dim (experience a) | None => 0 end) rs.
Definition largest (v : Q) (l : list Q) : Prop := Exists (fun x => x == v) l /\ Forall (fun x => x <= v) l.
Definition smallest (v : Q) (l : list Q) : Prop := Exists (fun x => x == v) l /\ Forall (fun x => v <= x) l.
