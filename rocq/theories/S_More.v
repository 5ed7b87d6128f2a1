(* Notions for the statements about fits with more iterations. *)
From Verif Require Import PyNum PyList PyMon PyRng M_Rule M_RuleGen M_Mixing M_Fit.

(* a logger that writes down all it is shown in every iteration *)
Record entry (L : learner) : Type := mkEntry { at_step : nat; at_pool : list (rule L); at_population : res (list satts); at_best : res (option (elite L)) }.
Arguments mkEntry {L}. Arguments at_step {L}. Arguments at_pool {L}. Arguments at_population {L}. Arguments at_best {L}.
Definition recorder (L : learner) : logger L :=
  mkLogger (list (entry L)) (Ok []) (fun _ _ i pool pop b l => Ok (l ++ [mkEntry i pool pop b])) (fun _ _ _ _ l => Ok l).
(* the same parameters, but for the number of iterations *)
Definition same_but_iterations (p p' : params) : Prop :=
  n_initial p = n_initial p' /\ n_rules p = n_rules p' /\ random_state p = random_state p' /\ patience p = patience p' /\ delta p = delta p'.
(* solution composition that does not ask for the announced maximum *)
Definition blind_to_length {L} (C : composition L) : Prop := forall X y m m' pool s c, crun C X y m pool s c = crun C X y m' pool s c.
(* two estimators that differ in the number of seeds prepared and in the announced maximum only *)
Record same_but_length {L} {D : discovery L} {C : composition L} {G : logger L} (e e' : est D C G) : Prop := {
  sl_step : step e = step e';
  sl_stop : counter e = counter e' /\ previous e = previous e';
  sl_status : is_error e = is_error e' /\ is_fitted e = is_fitted e';
  sl_elitist : elitist e = elitist e';
  sl_pool : pool e = pool e';
  sl_dseeds : exists l, dseeds e' = dseeds e ++ l;
  sl_cseeds : exists l, cseeds e' = cseeds e ++ l;
  sl_parts : disc e = disc e' /\ compo e = compo e' /\ logs e = logs e' }.
Definition begins_with {A} (l l' : list A) : Prop := exists rest, l' = l ++ rest.
