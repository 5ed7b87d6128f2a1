(* What the estimator sees of a composition that starts afresh. *)
From Verif Require Import PyNum PyList PyMon PyRng M_Matching M_Rule M_Mixing M_Solution M_Composition M_Fit M_Shipped.

(* a step of the composition on the same pool, data and seed raises the same exception or reports the same elitist and population, whatever the steps before left behind, if the optimizer's attributes are related *)
Definition reports_alike {K} (O : optimizer K) (R : ostate O -> ostate O -> Prop) : Prop := forall L rngof i c mix f, cwarm c = false -> carchive c = false ->
  forall X y k pool s (z z' : cst (shipped_composition L rngof O i c mix f)), R (cint (fst z)) (cint (fst z')) ->
  let C := shipped_composition L rngof O i c mix f in
  let x := crun C X y k pool s z in let x' := crun C X y k pool s z' in
  fst x = fst x' /\ (fst x = Ok tt -> cbest C (snd x) = cbest C (snd x') /\ cpopulation C (snd x) = cpopulation C (snd x')).
