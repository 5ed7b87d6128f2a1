(* Notions for the statements about early stopping and fits with fewer iterations. *)
From Verif Require Import PyNum PyList PyMon PyRng M_Rule M_RuleGen M_Mixing M_Fit.

(* the same parameters, but for those of early stopping *)
Definition same_but_stopping (p p' : params) : Prop :=
  n_iter p = n_iter p' /\ n_initial p = n_initial p' /\ n_rules p = n_rules p' /\ random_state p = random_state p'.
(* p' never stops, or waits at least as long as p and is content with smaller values *)
Definition more_patient (p p' : params) : Prop :=
  (patience p' <= 0)%Z \/ ((0 < patience p)%Z /\ (patience p <= patience p')%Z /\ delta p' <= delta p).
(* two estimators that differ in early_stopping_counter_ only *)
Definition same_but_counter {L} {D : discovery L} {C : composition L} {G : logger L} (e e' : est D C G) : Prop := set_counter 0 e = set_counter 0 e'.
(* p without early stopping and with n iterations *)
Definition exactly (n : nat) (p : params) : params := mkParams n (n_initial p) (n_rules p) (random_state p) 0 (delta p).
(* two estimators that have learned the same: everything but the seeds prepared, the announced maximum and early_stopping_counter_ *)
Record same_learned {L} {D : discovery L} {C : composition L} {G : logger L} (e e' : est D C G) : Prop := {
  sm_step : step e = step e';
  sm_previous : previous e = previous e';
  sm_status : is_error e = is_error e' /\ is_fitted e = is_fitted e';
  sm_elitist : elitist e = elitist e';
  sm_pool : pool e = pool e';
  sm_parts : disc e = disc e' /\ compo e = compo e' /\ logs e = logs e' }.
