(* The rest of a fit, from some iteration on. *)
From Verif Require Import PyNum PyList PyMon PyRng M_Matching M_Rule M_Mixing M_Solution M_Composition M_Fit M_Shipped.

(* the estimator without its solution composition *)
Definition sans {L} {D : discovery L} {C : composition L} {G : logger L} (e : est D C G) : est D C G := set_comps (disc e) None e.
(* the iterations that are left, and the end of fit *)
Definition rest {L} {D : discovery L} {C : composition L} {G : logger L} (p : params) (clean : bool) (X : matrix) (y : targets) (steps : list nat) : St (est D C G) unit :=
  let* failed := main_loop p X y steps in if failed then ret tt else finish clean X y.
(* a discovery whose own attributes do not change *)
Definition keeps_nothing {L} (D : discovery L) : Prop := forall X y pool el n s d, snd (snd (drun D X y pool el n s d)) = d.
