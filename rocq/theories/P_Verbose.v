(* C71: printed progress, warnings and text forms. *)
From Coq Require Import String Lia.
From Verif Require Import PyNum PyList PyMon PyRng L_Num L_List M_Matching M_Rule S_Rule M_RuleGen M_Mixing M_Fit S_Fit L_Fit L_FitEx L_RuleProps L_DiscoveryEx M_Verbose S_Verbose L_Verbose L_VerboseProps L_VerboseCalls L_VerboseEx.

(* ===== C71 ===== *)
(* the level of output changes nothing: state and result are those of a fit without any output, and what was put out before stays *)
Theorem C71_output_changes_nothing : forall (L : learner) (D : discovery L) (C : composition L) (G : logger L) verbose empty p os clean X y (e : est D C G) t,
  exists out, fit_v verbose empty p os clean X y (e, t) = (fst (fit p os clean X y e), (snd (fit p os clean X y e), t ++ out)).
Proof. exact @erase. Qed.
Print Assumptions C71_output_changes_nothing.
(* below level 4 only the messages about estimated bounds are printed, below level 1 none *)
Theorem C71_quiet : forall (L : learner) (D : discovery L) (C : composition L) (G : logger L) verbose empty p os clean X y (e e' : est D C G) r out,
  fit_v verbose empty p os clean X y (e, []) = (r, (e', out)) -> (verbose < 4)%Z ->
  Forall (fun o => is_progress o = true -> about_bounds o = true /\ (1 <= verbose)%Z) out.
Proof. exact out_quiet. Qed.
Print Assumptions C71_quiet.
(* from level 4 on: exactly the estimated bounds, the initial rules, and for iteration after iteration discovery and composition with
   the number of the iteration; then, if it was stopped early, why.  k: the iterations that took place *)
Theorem C71_lines : forall (L : learner) (D : discovery L) (C : composition L) (G : logger L) verbose empty p os clean X y (e e' : est D C G) r out,
  fit_v verbose empty p os clean X y (e, []) = (r, (e', out)) -> r = Ok tt -> is_error e' = false -> (4 <= verbose)%Z ->
  exists k stop, (k <= n_iter p)%nat /\ step e' = (match k with O => step e | S k' => k' end)%nat /\
    filter printed out = map (fun key => Progress (S (step e)) (n_iter p) (EmptyBounds key)) empty ++
      (if Nat.ltb 0 (n_initial p) then [Progress (S (step e)) (n_iter p) (Generating (n_initial p))] else []) ++
      lines_until (n_iter p) (n_rules p) k ++ stop /\
    (stop = [] /\ k = n_iter p \/ (0 < k)%nat /\ (0 < patience p)%Z /\ stop = [StoppedAfter (patience p); ElitistWas (Fin 0)]).
Proof. exact out_lines. Qed.
Print Assumptions C71_lines.
Example C71_lines_satisfiable : fst talked = Ok tt /\ is_error (fst (snd talked)) = false /\
  snd (snd talked) = [Progress 1 3 (EmptyBounds "origin_generation__bounds"); Progress 1 3 (Generating 1);
    Progress 1 3 (Generating 1); Progress 1 3 Optimizing; Progress 2 3 (Generating 1); Progress 2 3 Optimizing; Progress 3 3 (Generating 1); Progress 3 3 Optimizing].
Proof. vm_compute. auto. Qed.
(* a fit that ends in the error state says so exactly once, at the end, with the words for a ValueError exactly if it is one;
   every other fit that returns does not warn about an error *)
Theorem C71_one_error_warning : forall (L : learner) (D : discovery L) (C : composition L) (G : logger L) verbose empty p os clean X y (e e' : est D C G) r out,
  fit_v verbose empty p os clean X y (e, []) = (r, (e', out)) -> r = Ok tt ->
  (is_error e' = true -> exists o w x, out = o ++ [w] /\ reports w x /\ Forall (fun v => failure v = false) o) /\
  (is_error e' = false -> Forall (fun v => failure v = false) out).
Proof. exact out_failure. Qed.
Print Assumptions C71_one_error_warning.
(* an exception that leaves fit is not announced *)
Theorem C71_raised_not_warned : forall (L : learner) (D : discovery L) (C : composition L) (G : logger L) verbose empty p os clean X y (e e' : est D C G) r out,
  fit_v verbose empty p os clean X y (e, []) = (r, (e', out)) -> forall x, r = Raise x -> Forall (fun v => failure v = false) out.
Proof. exact out_raised. Qed.
Print Assumptions C71_raised_not_warned.
(* and it names the exception of the component that failed *)
Theorem C71_warning_names_cause : forall (L : learner) (D : discovery L) (C : composition L) (G : logger L) verbose empty p os X y
    (e e' : est (recorded_d D) (recorded_c C) G) r out,
  ready D C G p X y -> fit_v verbose empty p os false X y (e, []) = (r, (e', out)) -> r = Ok tt -> is_error e' = true ->
  (0 < n_rules p)%nat -> (n_initial p = 0%nat \/ (step e < n_iter p)%nat) -> starts_empty C -> Forall delivered (ccalls e') ->
  exists o w x, out = o ++ [w] /\ reports w x /\
    ((exists c, In c (dcalls e') /\ d_out c = Raise x) \/ (exists c, In c (ccalls e') /\ c_out c = Raise x)).
Proof. exact warning_cause. Qed.
Print Assumptions C71_warning_names_cause.
Example C71_warning_satisfiable : fst broke = Ok tt /\ is_error (fst (snd broke)) = true /\ snd (snd broke) = [FailedValueError ValueError] /\
  length (dcalls (fst (snd broke))) = 2%nat.
Proof. vm_compute. auto. Qed.
(* the warning about an empty population comes once for each discovery that left the pool empty *)
Theorem C71_empty_population : forall (L : learner) (D : discovery L) (C : composition L) (G : logger L) verbose empty p os X y
    (e e' : est (recorded_d D) (recorded_c C) G) r out,
  ready D C G p X y -> fit_v verbose empty p os false X y (e, []) = (r, (e', out)) ->
  length (filter empty_warning out) = length (filter left_empty (dcalls e')).
Proof. exact (fun L D C G v k p os X y e e' r out H1 H2 => proj1 (fit_calls L D C G v k p os X y e e' r out H1 H2)). Qed.
Print Assumptions C71_empty_population.
Example C71_empty_satisfiable : fst run_nothing = Ok tt /\ snd (snd run_nothing) = [EmptyPopulation; EmptyPopulation; EmptyPopulation] /\
  map left_empty (dcalls (fst (snd run_nothing))) = [true; true; true].
Proof. vm_compute. auto. Qed.
(* violated: this warning says that the composition of solutions will be skipped, but it is asked all the same, with no rules *)
Theorem C71_skipping_refuted : exists (L : learner) (D : discovery L) (C : composition L) (G : logger L) p X y e' out c,
  ready D C G p X y /\ fit_v 0 [] p 0 false X y (unfitted (recorded_d D) (recorded_c C) G, []) = (Ok tt, (e', out)) /\
  hd_error out = Some EmptyPopulation /\ hd_error (ccalls e') = Some c /\ c_pool c = [].
Proof. exact not_skipped. Qed.
Print Assumptions C71_skipping_refuted.
(* violated: the elitist's fitness reported when stopping early is always 0 *)
Theorem C71_reported_fitness_zero : forall (L : learner) (D : discovery L) (C : composition L) (G : logger L) verbose empty p os clean X y (e e' : est D C G) r out,
  fit_v verbose empty p os clean X y (e, []) = (r, (e', out)) -> forall f, In (ElitistWas f) out -> f = Fin 0.
Proof. exact out_zero. Qed.
Print Assumptions C71_reported_fitness_zero.
Theorem C71_reported_fitness_refuted : exists (L : learner) (D : discovery L) (C : composition L) (G : logger L) p X y e' out b f,
  ready D C G p X y /\ fit_v 1 [] p 0 false X y (unfitted D C G, []) = (Ok tt, (e', out)) /\ is_error e' = false /\
  elitist e' = Some (Learned b) /\ In (ElitistWas f) out /\ nlt f (sfitness (eatt b)) = true.
Proof. exact zero_reported. Qed.
Print Assumptions C71_reported_fitness_refuted.
(* violated: when an object is fitted again, the initial rules are announced with the number of the last iteration of the call before,
   which can exceed the number of iterations *)
Theorem C71_first_number_refuted : exists (L : learner) (D : discovery L) (C : composition L) (G : logger L) p1 p2 X y e1 e2 out i,
  ready D C G p1 X y /\ ready D C G p2 X y /\
  fit p1 0 false X y (unfitted D C G) = (Ok tt, e1) /\ is_error e1 = false /\
  fit_v 4 [] p2 0 false X y (e1, []) = (Ok tt, (e2, out)) /\ hd_error out = Some (Progress i (n_iter p2) (Generating (n_initial p2))) /\ (n_iter p2 < i)%nat.
Proof. exact late_step. Qed.
Print Assumptions C71_first_number_refuted.
(* the text of a fitted rule shows its error, fitness and experience.  A rule that matches none of the samples has no text: str() raises *)
Theorem C71_rule_text_partial : forall (L : learner) (r r' : rule L) X y, rule_fit L r X y = (Ok tt, r') -> exists ms a, match_call (cond r) X = Ok ms /\ att r' = Some a /\
  (In true ms -> rule_text r' = Ok [("error", error a); ("fitness", fitness a); ("experience", Fin (experience a))]%string) /\
  (~ In true ms -> rule_text r' = Raise TypeError).
Proof. exact @fit_text. Qed.
Print Assumptions C71_rule_text_partial.
Example C71_text_satisfiable : exists e f, rule_text (on_data dx dyy 0 2) = Ok [("error", Fin e); ("fitness", f); ("experience", Fin 3)]%string /\ e == 32 # 9.
Proof. eexists. eexists. split; vm_compute; reflexivity. Qed.
Theorem C71_rule_text_refuted : exists (L : learner) m X y r, rule_fit L (fresh_rule L m) X y = (Ok tt, r) /\ rule_text r = Raise TypeError.
Proof. exact no_text. Qed.
Print Assumptions C71_rule_text_refuted.
(* the same for the model: after a fit without error its text shows error, fitness and complexity.  Violated: the placeholder that an error leaves has no text *)
Theorem C71_model_text_partial : forall (L : learner) (D : discovery L) (C : composition L) (G : logger L) p os clean X y (e e' : est D C G),
  fit p os clean X y e = (Ok tt, e') -> exists m, elitist e' = Some m /\
  (is_error e' = true -> model_text m = Raise TypeError) /\
  (is_error e' = false -> exists b, m = Learned b /\
     model_text m = Ok [("error", Fin (serror (eatt b))); ("fitness", sfitness (eatt b)); ("complexity", Fin (qofnat (scomplexity (eatt b))))]%string).
Proof. exact fit_model_text. Qed.
Print Assumptions C71_model_text_partial.
(* a clone of a rule has its condition and nothing that was learned; fitted, it reports the truth whatever the original was fitted to *)
Theorem C71_clone : forall (L : learner) (r : rule L) X y, Forall (fun x => length x = length (bnd (cond r))) X /\ length y = length X ->
  cond (rule_clone L r) = cond r /\ rule_predict L (rule_clone L r) X = Raise NotFittedError /\ rule_text (rule_clone L r) = Raise TypeError /\
  exists r', rule_fit L (rule_clone L r) X y = (Ok tt, r') /\ truthful L (cond r) X y r'.
Proof. exact clone_fresh. Qed.
Print Assumptions C71_clone.
Example C71_clone_satisfiable : let r := on_data dx dyy 0 1 in exists a b, att r = Some a /\ att (snd (rule_fit ML (rule_clone ML r) [[0]; [7]] [3; 4])) = Some b /\
  experience a == 2 /\ experience b == 1.
Proof. eexists. eexists. split; [vm_compute; reflexivity|]. split; [vm_compute; reflexivity|]. split; reflexivity. Qed.
