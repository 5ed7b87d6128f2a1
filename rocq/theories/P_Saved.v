(* Properties of saved models: C43. *)
From Coq Require Import String.
From Verif Require Import PyNum PyList PyMon PyRng M_Matching M_Rule M_Mixing M_Fit M_Json M_Classes M_Saved S_Json S_Saved L_RuleProps L_DiscoveryEx L_GenomeProps L_FitEx L_JsonEx L_SavedProps L_SavedEx.
Local Open Scope string_scope.

(* C43: a fitted estimator whose mixing model keeps every rule and does not bound the experience, saved and loaded, has the same rules and the same predictions on every input.
   What is missing: estimators that selected no rule cannot be saved, other mixing models come back changed, and some configurations cannot be loaded (C44). *)
Theorem C43_round_trip_partial : forall (L : learner) (coefs : Mdl L -> option (list Q * Q)) (linear : string -> list Q -> Q -> Mdl L) absent (D : discovery L) (C : composition L) (G : logger L) conf conf' t (e e' : est D C G) f b,
  linear_models coefs linear -> configured library conf t (emix b) -> load_config library (save_config library conf) = Ok conf' ->
  M_Fit.is_fitted e = true -> is_error e = false -> M_Fit.elitist e = Some (Learned b) -> Forall (fun r => mt (cond r) = t) (selected b) ->
  mfilter (emix b) = KeepAll -> unbound (mexp (emix b)) = mexp (emix b) -> dump library coefs conf e = (Ok f, e') ->
  exists l, load library linear absent f = Ok l /\ Forall2 (same_rule coefs) (selected b) (l_pool l) /\ forall X g, predict_loaded l X g = predict e X g.
Proof. exact round_trip. Qed.
Print Assumptions C43_round_trip_partial.
Example C43_round_trip_ex : linear_models constant set_constant /\ configured library tested OrderedBound usual_mix /\
  load_config library (save_config library tested) = Ok (TObj "suprb.suprb.SupRB" tested_out) /\
  fit par7 0 false dx dyy (start finds2 usual_mix) = (Ok tt, fitted finds2 usual_mix) /\
  M_Fit.is_fitted (fitted finds2 usual_mix) = true /\ is_error (fitted finds2 usual_mix) = false /\ M_Fit.elitist (fitted finds2 usual_mix) = Some (Learned (elite2 usual_mix)) /\
  Forall (fun r => mt (cond r) = OrderedBound) (selected (elite2 usual_mix)) /\ length (selected (elite2 usual_mix)) = 2%nat /\
  exists f e' l, dump library constant tested (fitted finds2 usual_mix) = (Ok f, e') /\ load library set_constant nothing f = Ok l.
Proof.
  split; [exact constants_linear|]. split; [exact tested_configured|]. split; [exact tested_restored|]. split; [exact (fit2_ran _)|]. split; [exact (proj1 (is_fitted2 _))|]. split; [exact (proj2 (is_fitted2 _))|].
  split; [exact (elite2_is _)|]. split; [exact (ordered2 _)|]. split; [reflexivity|]. exact saved_ex.
Qed.

(* C43: whatever the mixing model, every rule of a file that loads is back: condition, error, experience, fitted mark, coefficients *)
Theorem C43_rules_restored : forall (L : learner) (coefs : Mdl L -> option (list Q * Q)) (linear : string -> list Q -> Q -> Mdl L) absent (D : discovery L) (C : composition L) (G : logger L) conf t mx (e e' : est D C G) f l b,
  linear_models coefs linear -> configured library conf t mx -> M_Fit.elitist e = Some (Learned b) -> Forall (fun r => mt (cond r) = t) (selected b) ->
  dump library coefs conf e = (Ok f, e') -> load library linear absent f = Ok l -> Forall2 (same_rule coefs) (selected b) (l_pool l).
Proof. exact rules_restored. Qed.
Print Assumptions C43_rules_restored.
Example C43_rules_restored_ex : linear_models constant set_constant /\ configured library (with_mixing one_best) OrderedBound best_mix /\
  M_Fit.elitist (fitted finds2 best_mix) = Some (Learned (elite2 best_mix)) /\ Forall (fun r => mt (cond r) = OrderedBound) (selected (elite2 best_mix)).
Proof. split; [exact constants_linear|]. split; [apply with_mixing_configured; vm_compute; reflexivity|]. split; [exact (elite2_is _)|exact (ordered2 _)]. Qed.

(* C43: what the loaded mixing model is: no filter, no bounds on the experience, the same way of counting and the same weight *)
Theorem C43_loaded_mixing : forall (L : learner) (coefs : Mdl L -> option (list Q * Q)) (linear : string -> list Q -> Q -> Mdl L) absent (D : discovery L) (C : composition L) (G : logger L) conf t mx (e e' : est D C G) f l,
  configured library conf t mx -> dump library coefs conf e = (Ok f, e') -> load library linear absent f = Ok l -> l_mixing l = mkMixing KeepAll (unbound (mexp mx)) (mweight mx).
Proof. exact mixing_loaded. Qed.
Print Assumptions C43_loaded_mixing.
Example C43_loaded_mixing_ex : configured library (with_mixing one_best) OrderedBound best_mix /\ configured library (with_mixing at_most_one) OrderedBound cap_mix.
Proof. split; apply with_mixing_configured; vm_compute; reflexivity. Qed.

(* C43: saving does not change what the estimator predicts, even when it fails *)
Theorem C43_saving_keeps_predictions : forall (L : learner) coefs (D : discovery L) (C : composition L) (G : logger L) conf (e e' : est D C G) r X g,
  dump library coefs conf e = (r, e') -> predict e' X g = predict e X g.
Proof. exact dump_predicts. Qed.
Print Assumptions C43_saving_keeps_predictions.
Example C43_saving_keeps_predictions_ex : exists p, fst (predict (fitted finds2 usual_mix) at0 (scripted [])) = Ok [p] /\ p == 36 # 640027.
Proof. apply predicts. vm_compute. reflexivity. Qed.

(* C43 violated: a mixing model that uses only the best rule uses all rules after loading *)
Theorem C43_filter_refuted : exists (L : learner) (coefs : Mdl L -> option (list Q * Q)) (linear : string -> list Q -> Q -> Mdl L) absent (D : discovery L) (C : composition L) (G : logger L) p X0 y0 e conf b f e' l X g u v,
    fit p 0 false X0 y0 (unfitted D C G) = (Ok tt, e) /\ M_Fit.elitist e = Some (Learned b) /\ emix b = mkMixing (NBestFitness 1) ExpAsIs 1 /\ configured library conf OrderedBound (emix b) /\
    linear_models coefs linear /\ dump library coefs conf e = (Ok f, e') /\ load library linear absent f = Ok l /\
    fst (predict e X g) = Ok [u] /\ fst (predict_loaded l X g) = Ok [v] /\ ~ u == v.
Proof. exact filter_changes_any. Qed.
Print Assumptions C43_filter_refuted.

(* C43 violated: a bound on the experience is gone after loading *)
Theorem C43_experience_refuted : exists (L : learner) (coefs : Mdl L -> option (list Q * Q)) (linear : string -> list Q -> Q -> Mdl L) absent (D : discovery L) (C : composition L) (G : logger L) p X0 y0 e conf b f e' l X g u v,
    fit p 0 false X0 y0 (unfitted D C G) = (Ok tt, e) /\ M_Fit.elitist e = Some (Learned b) /\ emix b = mkMixing KeepAll (CapExperience None (Some 1)) 1 /\ configured library conf OrderedBound (emix b) /\
    linear_models coefs linear /\ dump library coefs conf e = (Ok f, e') /\ load library linear absent f = Ok l /\
    fst (predict e X g) = Ok [u] /\ fst (predict_loaded l X g) = Ok [v] /\ ~ u == v.
Proof. exact cap_changes_any. Qed.
Print Assumptions C43_experience_refuted.

(* C43 violated: an estimator that selected no rule cannot be saved *)
Theorem C43_empty_refuted : exists (L : learner) (coefs : Mdl L -> option (list Q * Q)) (D : discovery L) (C : composition L) (G : logger L) p X y e e' conf mx,
  fit p 0 false X y (unfitted D C G) = (Ok tt, e) /\ is_error e = false /\ M_Fit.is_fitted e = true /\ configured library conf OrderedBound mx /\ dump library coefs conf e = (Raise IndexError, e').
Proof. exact unsaved_any. Qed.
Print Assumptions C43_empty_refuted.

(* C43 violated: an estimator made without arguments can be saved, but its file cannot be loaded *)
Theorem C43_default_refuted : exists (L : learner) (coefs : Mdl L -> option (list Q * Q)) (linear : string -> list Q -> Q -> Mdl L) absent (D : discovery L) (C : composition L) (G : logger L) p X y e f e' conf,
  build library "suprb.suprb.SupRB" [] = Ok conf /\ fit p 0 false X y (unfitted D C G) = (Ok tt, e) /\ is_error e = false /\
  dump library coefs conf e = (Ok f, e') /\ load library linear absent f = Raise ImportError.
Proof. exact default_any. Qed.
Print Assumptions C43_default_refuted.

(* C43 violated: a loaded estimator cannot be saved *)
Theorem C43_saved_once_refuted : exists (L : learner) (coefs : Mdl L -> option (list Q * Q)) (linear : string -> list Q -> Q -> Mdl L) absent (D : discovery L) (C : composition L) (G : logger L) p X y e f e' l conf mx,
  fit p 0 false X y (unfitted D C G) = (Ok tt, e) /\ configured library conf OrderedBound mx /\ dump library coefs conf e = (Ok f, e') /\ load library linear absent f = Ok l /\ dump_loaded library coefs l = Raise AttributeError.
Proof. exact again_any. Qed.
Print Assumptions C43_saved_once_refuted.
