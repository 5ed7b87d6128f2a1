(* Properties C10 and C11: fitting a rule. *)
From Verif Require Import PyNum PyList PyMon M_Matching S_Matching M_Rule S_Rule L_Rule L_RuleProps.

(* ----- C10: for every regressor, condition and data set, a fresh rule reports the truth ----- *)
Theorem C10_fit_reports_truth : forall (L : learner) m X y,
  Forall (fun x => length x = length (bnd m)) X /\ length y = length X ->
  exists r, rule_fit L (fresh_rule L m) X y = (Ok tt, r) /\ truthful L m X y r.
Proof. exact fit_fresh_truthful. Qed.
Print Assumptions C10_fit_reports_truth.
Example C10_satisfiable :
  let m := mkMatching OrderedBound [(0, 1)] in let X := [[0]; [3]; [1]] in let y := [1; 7; 2] in
  (Forall (fun x => length x = length (bnd m)) X /\ length y = length X) /\
  exists a, att (snd (rule_fit mean_learner (fresh_rule mean_learner m) X y)) = Some a /\
    match_set a = [true; false; true] /\ experience a == 2 /\ exists e, error a = Fin e /\ e == 1#4.
Proof.
  split; [split; repeat constructor|]. eexists; split; [vm_compute; reflexivity|]. split; [reflexivity|].
  split; [reflexivity|]. eexists; split; reflexivity.
Qed.

(* ----- C11: refitting ----- *)
(* any number of fits on the same data gives the same, truthful, rule *)
Theorem C11_same_data_partial : forall (L : learner) m X y n,
  Forall (fun x => length x = length (bnd m)) X /\ length y = length X ->
  exists r, rule_fits L (fresh_rule L m) (repeat (X, y) (S n)) = (Ok tt, r) /\ truthful L m X y r /\
            rule_fit L (fresh_rule L m) X y = (Ok tt, r).
Proof. exact fits_same_data. Qed.
Print Assumptions C11_same_data_partial.
(* when the new data changes the match set, the rule reports the truth about the new data *)
Theorem C11_changed_match_set_partial : forall (L : learner) (r : rule L) X y a,
  (Forall (fun x => length x = length (bnd (cond r))) X /\ length y = length X) ->
  att r = Some a -> length (match_set a) = length X -> ~ flags_of (cond r) X (match_set a) ->
  exists r', rule_fit L r X y = (Ok tt, r') /\ truthful L (cond r) X y r'.
Proof. exact fit_changed_truthful. Qed.
Print Assumptions C11_changed_match_set_partial.
(* over every history of fits with equally many samples: no exception, and the values are those of a fit from scratch
   on one of the data sets of the history, with the match set of the last one *)
Theorem C11_history_partial : forall (L : learner) m data n,
  data <> [] ->
  Forall (fun d => (Forall (fun x => length x = length (bnd m)) (fst d) /\ length (snd d) = length (fst d)) /\
                   length (fst d) = n) data ->
  exists r X y Xl yl, rule_fits L (fresh_rule L m) data = (Ok tt, r) /\
    In (X, y) data /\ In (Xl, yl) data /\ last data (Xl, yl) = (Xl, yl) /\
    truthful L m X y r /\ exists a, att r = Some a /\ flags_of m Xl (match_set a).
Proof. exact history_some_data. Qed.
Print Assumptions C11_history_partial.
(* new targets for the same match set are ignored *)
Theorem C11_refit_refuted : exists (L : learner) m X y1 y2 r1 r2,
  (Forall (fun x => length x = length (bnd m)) X /\ length y1 = length X) /\
  (Forall (fun x => length x = length (bnd m)) X /\ length y2 = length X) /\
  rule_fit L (fresh_rule L m) X y1 = (Ok tt, r1) /\ rule_fit L r1 X y2 = (Ok tt, r2) /\
  ~ truthful L m X y2 r2.
Proof. exact refit_stale. Qed.
Print Assumptions C11_refit_refuted.
