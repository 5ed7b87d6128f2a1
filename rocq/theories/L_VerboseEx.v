(* Texts of rules, and runs used as witnesses. *)
From Coq Require Import String Lia.
From Verif Require Import PyNum PyList PyMon PyRng L_Num L_List M_Matching M_Rule S_Rule L_Rule M_RuleGen M_Mixing M_Fit S_Fit L_Fit L_FitProps L_FitEx L_RuleProps L_DiscoveryEx M_Verbose S_Verbose L_Verbose L_VerboseProps L_VerboseCalls.

Lemma erase {L} {D : discovery L} {C : composition L} {G : logger L} v keys p os clean X y (e : est D C G) t :
  exists out, fit_v v keys p os clean X y (e, t) = (fst (fit p os clean X y e), (snd (fit p os clean X y e), t ++ out)).
Proof. destruct (fit_goes L D C G v keys p os clean X y e t) as (out & H & _). eauto. Qed.

Lemma fit_text {L} (r r' : rule L) X y : rule_fit L r X y = (Ok tt, r') -> exists ms a, match_call (cond r) X = Ok ms /\ att r' = Some a /\
  (In true ms -> rule_text r' = Ok [("error", error a); ("fitness", fitness a); ("experience", Fin (experience a))]%string) /\
  (~ In true ms -> rule_text r' = Raise TypeError).
Proof.
  assert (HX : forall ms, existsb (fun b => b) ms = true <-> In true ms).
  { intros ms. rewrite existsb_exists. split; [intros (b & HI & ->)|exists true]; auto. }
  unfold rule_fit. destruct (match_call (cond r) X) as [ms|]; [|discriminate]. destruct (existsb (fun b => b) ms) eqn:EX; cbn [negb].
  - assert (HI : In true ms) by now apply HX. intros H.
    assert (HT : exists a, att r' = Some a /\ M_Rule.is_fitted a = true).
    { destruct (att r) as [a|]; [destruct (same_flags (match_set a) ms) as [[|]|]; [injection H as <-; eexists; split; reflexivity| |discriminate]|];
        (destruct (Nat.eqb (length y) (length X)); [|discriminate]; unfold trained in H; injection H as <-; eexists; split; reflexivity). }
    destruct HT as (a & H1 & H2). exists ms, a. split; auto. split; auto. unfold rule_text. rewrite H1, H2. split; [reflexivity|easy].
  - intros H. injection H as <-. eexists ms, _. split; [reflexivity|]. split; [reflexivity|]. cbn. split; [|reflexivity]. intros HI. apply HX in HI. congruence.
Qed.
Lemma clone_fresh (L : learner) (r : rule L) X y : Forall (fun x => length x = length (bnd (cond r))) X /\ length y = length X ->
  cond (rule_clone L r) = cond r /\ rule_predict L (rule_clone L r) X = Raise NotFittedError /\ rule_text (rule_clone L r) = Raise TypeError /\
  exists r', rule_fit L (rule_clone L r) X y = (Ok tt, r') /\ truthful L (cond r) X y r'.
Proof. intros H. split; [reflexivity|]. split; [reflexivity|]. split; [reflexivity|]. apply fit_fresh_truthful. exact H. Qed.
(* ----- runs ----- *)
Definition said (v : Z) (keys : list string) {D : discovery ML} {C : composition ML} p (e : est D C silent) := fit_v v keys p 0 false dx dyy (e, []).
Lemma ran_said v keys {D : discovery ML} {C : composition ML} p (e : est D C silent) r : fst (said v keys p e) = r ->
  fit_v v keys p 0 false dx dyy (e, []) = (r, (fst (snd (said v keys p e)), snd (snd (said v keys p e)))).
Proof. unfold said. destruct (fit_v v keys p 0 false dx dyy (e, [])) as [r' [e' o]]. cbn. intros ->. reflexivity. Qed.
(* early stopping although the elitist has fitness 1/4 *)
Definition quarter : composition ML := scripted_c (fun _ => Ok tt) (fun _ => Fin (1#4)).
Lemma zero_reported : exists (L : learner) (D : discovery L) (C : composition L) (G : logger L) p X y e' out b f,
  ready D C G p X y /\ fit_v 1 [] p 0 false X y (unfitted D C G, []) = (Ok tt, (e', out)) /\ is_error e' = false /\
  elitist e' = Some (Learned b) /\ In (ElitistWas f) out /\ nlt f (sfitness (eatt b)) = true.
Proof.
  exists ML, finds, quarter, silent, es_p, dx, dyy, (fst (snd (said 1 [] es_p (unfitted finds quarter silent)))), (snd (snd (said 1 [] es_p (unfitted finds quarter silent)))).
  eexists _, (Fin 0). split; [apply scripted_ready; cbn; lia|]. split; [apply ran_said; vm_compute; reflexivity|]. split; [vm_compute; reflexivity|].
  split; [vm_compute; reflexivity|]. split; [vm_compute; auto|vm_compute; reflexivity].
Qed.
(* the messages of a second call of fit *)
Definition stale1 := from stale_p1 (unfitted finds works silent).
Lemma late_step : exists (L : learner) (D : discovery L) (C : composition L) (G : logger L) p1 p2 X y e1 e2 out i,
  ready D C G p1 X y /\ ready D C G p2 X y /\
  fit p1 0 false X y (unfitted D C G) = (Ok tt, e1) /\ is_error e1 = false /\
  fit_v 4 [] p2 0 false X y (e1, []) = (Ok tt, (e2, out)) /\ hd_error out = Some (Progress i (n_iter p2) (Generating (n_initial p2))) /\ (n_iter p2 < i)%nat.
Proof.
  exists ML, finds, works, silent, stale_p1, stale_p2, dx, dyy, stale1, (fst (snd (said 4 [] stale_p2 stale1))), (snd (snd (said 4 [] stale_p2 stale1))), 3%nat.
  split; [apply scripted_ready; cbn; lia|]. split; [apply scripted_ready; cbn; lia|]. split; [apply ran_from; vm_compute; reflexivity|]. split; [vm_compute; reflexivity|].
  split; [apply ran_said; vm_compute; reflexivity|]. split; [vm_compute; reflexivity|cbn; lia].
Qed.
(* the composition is asked although the warning says that it is skipped *)
Definition nothing : discovery ML := scripted_d (fun _ => Ok []).
Definition run_nothing := said 0 [] par1 (unfitted (recorded_d nothing) (recorded_c works) silent).
Lemma not_skipped : exists (L : learner) (D : discovery L) (C : composition L) (G : logger L) p X y e' out c,
  ready D C G p X y /\ fit_v 0 [] p 0 false X y (unfitted (recorded_d D) (recorded_c C) G, []) = (Ok tt, (e', out)) /\
  hd_error out = Some EmptyPopulation /\ hd_error (ccalls e') = Some c /\ c_pool c = [].
Proof.
  exists ML, nothing, works, silent, par1, dx, dyy, (fst (snd run_nothing)), (snd (snd run_nothing)). eexists.
  split; [apply scripted_ready; cbn; lia|]. split; [apply ran_said; vm_compute; reflexivity|]. split; [vm_compute; reflexivity|]. split; vm_compute; reflexivity.
Qed.
(* a rule that matches nothing has no text *)
Lemma no_text : exists (L : learner) m X y r, rule_fit L (fresh_rule L m) X y = (Ok tt, r) /\ rule_text r = Raise TypeError.
Proof. exists ML, (mkMatching OrderedBound [(5, 6)]), dx, dyy. eexists. split; vm_compute; reflexivity. Qed.
(* examples *)
Definition talked := said 4 ["origin_generation__bounds"%string] stale_p1 (unfitted finds works silent).
Definition broke := said 0 [] par1 (unfitted (recorded_d breaks) (recorded_c works) silent).
