(* What the examples should print: every attribute below the estimator that holds no object, under its path. *)
From Coq Require Import String.
From Verif Require Import PyNum PyList PyMon M_Scores.
Local Open Scope string_scope.

Inductive leaf_at : value -> list string -> nat -> Prop :=
| leaf_here c attrs name n : In (name, Plain n) attrs -> leaf_at (Obj c attrs) [name] n
| leaf_below c attrs name x path n : In (name, x) attrs -> leaf_at x path n -> leaf_at (Obj c attrs) (name :: path) n.
Fixpoint joined (path : list string) : string :=
  match path with [] => "" | [a] => a | a :: rest => a ++ "__" ++ joined rest end.
(* a text with a keyword somewhere in it *)
Definition hidden (kws : list string) (s : string) : Prop := exists kw a b, In kw kws /\ s = a ++ kw ++ b.
Definition visible (kws : list string) (path : list string) : Prop := Forall (fun a => ~ hidden kws a) path.
(* no two attributes get the same name *)
Definition unambiguous (kws : list string) (v : value) : Prop :=
  forall p q n m, leaf_at v p n -> leaf_at v q m -> visible kws p -> visible kws q -> joined p = joined q -> p = q /\ n = m.
(* the same objects but for their classes *)
Inductive same_attributes : value -> value -> Prop :=
| same_plain n : same_attributes (Plain n) (Plain n)
| same_object c c' a a' : Forall2 (fun x y => fst x = fst y /\ same_attributes (snd x) (snd y)) a a' -> same_attributes (Obj c a) (Obj c' a').
(* the attributes without objects in order, the ones of a component at its place *)
Fixpoint leaves (v : value) : list (list string * nat) :=
  match v with
  | Plain n => [([], n)]
  | Obj _ attrs => flat_map (fun a => map (fun l => (fst a :: fst l, snd l)) (leaves (snd a))) attrs
  end.
Definition printed_as (l : list string * nat) : string * nat := (joined (fst l), snd l).
(* the dictionary cross_validate returns *)
Definition cross_validated (ks : string * score) : Prop :=
  (fst ks = "estimator" -> exists c attrs rest, snd ks = Estimators (Obj c attrs :: rest)) /\ (fst ks <> "estimator" -> exists n, snd ks = Numbers n).
