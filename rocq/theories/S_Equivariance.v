(* Targets that are shifted or rescaled. *)
From Verif Require Import PyNum PyList PyMon M_Matching S_Matching M_Rule M_Mixing S_Mixing S_Invariance.

Section Targets.
Variable L : learner.
(* q: what happens to a target, and what should happen to a prediction *)
Variable q : Q -> Q.
Definition retargeted (y : targets) : targets := map q y.
(* the local model follows *)
Definition follows : Prop := forall X y x, X <> [] -> length y = length X -> mpred L (train L X (retargeted y)) x == q (mpred L (train L X y) x).
(* fitness depends on the value of the error only *)
Definition sound_fitness : Prop := forall m e e', e == e' -> same_num (rfitness L m e) (rfitness L m e').
Definition moved_model (a b : option (Mdl L)) : Prop := match a, b with Some a, Some b => forall x, mpred L b x == q (mpred L a x) | None, None => True | _, _ => False end.
End Targets.
Definition shift (c : Q) : Q -> Q := fun t => t + c.
Definition scale (k : Q) : Q -> Q := fun t => k * t.
(* no rule is so accurate that its error is the smallest one *)
Definition above_floor {L} (r : rule L) : Prop := exists a e, att r = Some a /\ error a = Fin e /\ (1 # 10000) < e.
(* a rule fitted to shifted targets: the same but for its predictions *)
Definition shifted {L} (c : Q) (r r' : rule L) : Prop := cond r = cond r' /\ moved_model L (shift c) (rmodel r) (rmodel r') /\ same_values (att r) (att r').
(* a rule fitted to rescaled targets: predictions and error rescaled *)
Definition scaled {L} (k : Q) (r r' : rule L) : Prop := cond r = cond r' /\ moved_model L (scale k) (rmodel r) (rmodel r') /\
  exists a a' e e', att r = Some a /\ att r' = Some a' /\ is_fitted a = is_fitted a' /\ error a = Fin e /\ error a' = Fin e' /\ e' == k * k * e /\ experience a == experience a'.
