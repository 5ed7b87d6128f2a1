(* C80: the parameters the examples print. *)
From Coq Require Import String.
From Verif Require Import PyNum PyList PyMon M_Scores S_Scores L_Scores L_ScoresOrder.
Local Open Scope string_scope.

(* get_params ends with one entry per name; each entry is an attribute none of whose names has a keyword in it, and each such attribute has its name listed *)
Theorem C80_parameters : forall kws c attrs, exists d, get_params (Some kws) "" (Obj c attrs) = Ok d /\ NoDup (map fst d) /\
  (forall k n, In (k, n) d -> exists p, leaf_at (Obj c attrs) p n /\ visible kws p /\ k = joined p) /\
  (forall p n, leaf_at (Obj c attrs) p n -> visible kws p -> exists m, In (joined p, m) d).
Proof. exact params_of. Qed.
Print Assumptions C80_parameters.
(* if no two attributes get the same name, exactly those attributes are listed, with their values *)
Theorem C80_every_attribute : forall kws c attrs d, unambiguous kws (Obj c attrs) -> get_params (Some kws) "" (Obj c attrs) = Ok d ->
  forall k n, In (k, n) d <-> exists p, leaf_at (Obj c attrs) p n /\ visible kws p /\ k = joined p.
Proof. exact params_exact. Qed.
Print Assumptions C80_every_attribute.
(* and they are listed in the order of the attributes, those of a component at its place *)
Theorem C80_order : forall kws vis c attrs, (forall a, vis a = true <-> ~ hidden kws a) ->
  let ps := filter (fun l => forallb vis (fst l)) (leaves (Obj c attrs)) in NoDup (map (fun l => joined (fst l)) ps) -> get_params (Some kws) "" (Obj c attrs) = Ok (map printed_as ps).
Proof. exact params_listed. Qed.
Print Assumptions C80_order.
(* log_scores prints one line per result and the parameters of the first estimator at the place of the estimators *)
Theorem C80_all_scores : forall scores, Forall cross_validated scores -> exists parts, log_scores scores = Ok (concat parts) /\
  Forall2 (fun ks part => (fst ks = "estimator" -> score_lines (fst ks) (snd ks) = Ok part) /\ (fst ks <> "estimator" -> exists n, snd ks = Numbers n /\ part = [(fst ks, n)])) scores parts.
Proof. exact all_scores. Qed.
Print Assumptions C80_all_scores.
Example C80_order_satisfiable :
  let e := Obj "SupRB" [("n_iter", Plain 32); ("mutation", Obj "Normal" [("sigma", Plain 1); ("pool_", Plain 2)]); ("n_rules", Plain 4)] in let vis := fun a => negb (existsb (fun kw => occurs kw a) score_keywords) in
  (forall a, vis a = true <-> ~ hidden score_keywords a) /\ NoDup (map (fun l => joined (fst l)) (filter (fun l => forallb vis (fst l)) (leaves e))) /\
  map printed_as (filter (fun l => forallb vis (fst l)) (leaves e)) = [("n_iter", 32%nat); ("mutation__sigma", 1%nat); ("n_rules", 4%nat)] /\ Forall cross_validated [("fit_time", Numbers 3); ("estimator", Estimators [e])].
Proof.
  intros e vis. split; [|split; [|split]].
  - intros a. unfold vis. rewrite Bool.negb_true_iff, <- hidden_iff, Bool.not_true_iff_false. reflexivity.
  - vm_compute. repeat constructor; cbn; intuition discriminate.
  - reflexivity.
  - repeat apply Forall_cons; [| |apply Forall_nil]; (split; [intros H; try discriminate H; eexists _, _, _; reflexivity|intros H; try (exfalso; apply H; reflexivity); eexists; reflexivity]).
Qed.
(* what log_scores prints of an estimator: exactly those whose whole name has no keyword in it either *)
Theorem C80_printed : forall c attrs rest lines, unambiguous score_keywords (Obj c attrs) -> score_lines "estimator" (Estimators (Obj c attrs :: rest)) = Ok lines ->
  NoDup (map fst lines) /\
  forall k n, In (k, n) lines <-> exists p, leaf_at (Obj c attrs) p n /\ visible score_keywords p /\ k = joined p /\ ~ hidden score_keywords k.
Proof. exact scores_lines. Qed.
Print Assumptions C80_printed.
(* without keywords (the default) there is no list of parameters unless there are no attributes *)
Theorem C80_default_refuted : exists c attrs, get_params None "" (Obj c attrs) = Raise TypeError /\ leaf_at (Obj c attrs) ["n_iter"] 32.
Proof. exists "SupRB", [("n_iter", Plain 32)]. split; [reflexivity|]. apply leaf_here. left. reflexivity. Qed.
Print Assumptions C80_default_refuted.
(* two attributes can get one name (a trailing and a leading underscore look alike), and one of them is not printed *)
Theorem C80_same_name_refuted : exists c attrs p q n m lines, NoDup (map fst attrs) /\ leaf_at (Obj c attrs) p n /\ leaf_at (Obj c attrs) q m /\ p <> q /\ visible score_keywords p /\ visible score_keywords q /\
  ~ hidden score_keywords (joined p) /\ score_lines "estimator" (Estimators [Obj c attrs]) = Ok lines /\ ~ In n (map snd lines).
Proof.
  exists "SupRB", [("elitist", Obj "Solution" [("_error", Plain 1)]); ("elitist_", Obj "Solution" [("error", Plain 2)])], ["elitist"; "_error"], ["elitist_"; "error"], 1%nat, 2%nat, [("elitist___error", 2%nat)].
  split; [repeat constructor; cbn; intuition discriminate|]. split; [eapply leaf_below; [left; reflexivity|apply leaf_here; left; reflexivity]|]. split; [eapply leaf_below; [right; left; reflexivity|apply leaf_here; left; reflexivity]|].
  split; [discriminate|]. split; [repeat constructor; rewrite <- hidden_iff; discriminate|]. split; [repeat constructor; rewrite <- hidden_iff; discriminate|]. split; [rewrite <- hidden_iff; discriminate|].
  split; [reflexivity|]. cbn. intuition discriminate.
Qed.
Print Assumptions C80_same_name_refuted.
(* which class a component has is not printed: estimators that differ only in classes look the same *)
Theorem C80_classes_refuted : exists v w lines, v <> w /\ score_lines "estimator" (Estimators [v]) = Ok lines /\ score_lines "estimator" (Estimators [w]) = Ok lines /\ lines <> [].
Proof.
  exists (Obj "SupRB" [("n_iter", Plain 32); ("mutation", Obj "Normal" [("sigma", Plain 1)])]), (Obj "SupRB" [("n_iter", Plain 32); ("mutation", Obj "Halfnorm" [("sigma", Plain 1)])]), [("n_iter", 32%nat); ("mutation__sigma", 1%nat)].
  split; [discriminate|]. split; [reflexivity|]. split; [reflexivity|discriminate].
Qed.
Print Assumptions C80_classes_refuted.
Theorem C80_classes : forall kws prefix v w, same_attributes v w -> get_params kws prefix v = get_params kws prefix w.
Proof. intros kws prefix v w. exact (params_class kws v prefix w). Qed.
Print Assumptions C80_classes.
(* an estimator with nested components; keywords hide whole objects and single attributes *)
Example C80_satisfiable :
  let e := Obj "SupRB" [("n_iter", Plain 32); ("rule_discovery", Obj "ES1xLambda" [("lmbda", Plain 20); ("mutation", Obj "HalfnormIncrease" [("sigma", Plain 122)])]); ("pool_", Plain 7); ("elitist_", Obj "Solution" [("genome", Plain 8); ("error_", Plain 9)])] in
  score_lines "estimator" (Estimators [e]) = Ok [("n_iter", 32%nat); ("rule_discovery__lmbda", 20%nat); ("rule_discovery__mutation__sigma", 122%nat); ("elitist___error_", 9%nat)] /\
  log_scores [("fit_time", Numbers 3); ("estimator", Estimators [e])] = Ok [("fit_time", 3%nat); ("n_iter", 32%nat); ("rule_discovery__lmbda", 20%nat); ("rule_discovery__mutation__sigma", 122%nat); ("elitist___error_", 9%nat)] /\
  unambiguous score_keywords (Obj "SupRB" [("n_iter", Plain 32); ("mutation", Obj "Normal" [("sigma", Plain 1)])]).
Proof.
  split; [reflexivity|]. split; [reflexivity|]. intros p q n m Hp Hq _ _.
  assert (HH : forall p n, leaf_at (Obj "SupRB" [("n_iter", Plain 32); ("mutation", Obj "Normal" [("sigma", Plain 1)])]) p n -> (p = ["n_iter"] /\ n = 32%nat) \/ (p = ["mutation"; "sigma"] /\ n = 1%nat)).
  { intros r k H. apply leaf_inv in H as [(nm & -> & [E|[E|[]]])|(nm & x & s & -> & [E|[E|[]]] & HL)]; try discriminate; injection E as <- <-; [left; auto|inversion HL|].
    apply leaf_inv in HL as [(nm & -> & [E|[]])|(nm & x & s' & -> & [E|[]] & HL)]; injection E as <- <-; [right; auto|inversion HL]. }
  destruct (HH p n Hp) as [[-> ->]|[-> ->]], (HH q m Hq) as [[-> ->]|[-> ->]]; intros E; auto; discriminate.
Qed.
