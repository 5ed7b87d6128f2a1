(* Rules, predictions and rule discovery with fitness on another scale. *)
From Coq Require Import Lia.
From Verif Require Import PyNum PyList PyMon PyRng L_Num L_List M_Matching M_Rule M_RuleGen M_Mixing M_GenomeOps M_Discovery M_Solution M_Fit M_Shipped L_Invariance S_Units L_Units L_UnitsDisc S_Order L_Ratio.

Section Rules.
Variables (h : num -> num) (L : learner).
Hypothesis Hh : rising h.
Hypothesis Hworst : h NInf = NInf.
Notation L' := (on_scale h L). Notation rr := (ranked_rule h L).
Lemma fitted_ranked m X y : alike_res rr (fitted m X y) (fitted (L := L') m X y).
Proof.
  unfold fitted, rule_fit. cbn [cond fresh_rule att]. destruct (match_call m X) as [ms|e]; [|reflexivity]. destruct (negb _).
  - constructor; [reflexivity|reflexivity|]. cbn. constructor; cbn; auto.
  - destruct (Nat.eqb _ _); [|reflexivity]. constructor; [reflexivity|reflexivity|]. cbn. constructor; cbn; auto.
Qed.
(* comparisons of two fitness values *)
Lemma lt_ranked r q r' q' : rr r r' -> rr q q' -> nlt (fit_or_nan L r) (fit_or_nan L q) = nlt (fit_or_nan L' r') (fit_or_nan L' q').
Proof.
  intros H1 H2. pose proof (rk_atts _ _ _ _ H1) as A1. pose proof (rk_atts _ _ _ _ H2) as A2. unfold fit_or_nan. destruct (att r) as [t|], (att r') as [t'|]; cbn in A1; try contradiction; destruct (att q) as [u|], (att q') as [u'|]; cbn in A2; try contradiction; try reflexivity.
  - rewrite (ra_fitness _ _ _ A1), (ra_fitness _ _ _ A2). symmetry. apply Hh.
  - destruct (M_Rule.fitness t), (M_Rule.fitness t'); reflexivity.
Qed.
Lemma le_ranked r q r' q' : rr r r' -> rr q q' -> nle (fit_or_nan L r) (fit_or_nan L q) = nle (fit_or_nan L' r') (fit_or_nan L' q').
Proof.
  intros H1 H2. pose proof (rk_atts _ _ _ _ H1) as A1. pose proof (rk_atts _ _ _ _ H2) as A2. unfold fit_or_nan. destruct (att r) as [t|], (att r') as [t'|]; cbn in A1; try contradiction; destruct (att q) as [u|], (att q') as [u'|]; cbn in A2; try contradiction; try reflexivity.
  - rewrite (ra_fitness _ _ _ A1), (ra_fitness _ _ _ A2). symmetry. apply Hh.
  - destruct (M_Rule.fitness t), (M_Rule.fitness t'); reflexivity.
Qed.
Lemma value_ranked k r r' : (forall v, h v = nmul (Fin k) v) -> 0 < k -> rr r r' -> by_k k (fit_or_nan L r) (fit_or_nan L' r').
Proof.
  intros Hv Hk H. unfold fit_or_nan, fitness_of, get_att. pose proof (rk_atts _ _ _ _ H) as A. destruct (att r) as [t|], (att r') as [t'|]; cbn in A; try contradiction; cbn; [|exact I]. rewrite (ra_fitness _ _ _ A), Hv. apply by_k_mul. exact Hk.
Qed.
Lemma values_ranked k rs rs' : (forall v, h v = nmul (Fin k) v) -> 0 < k -> Forall2 rr rs rs' -> alike_res (Forall2 (by_k k)) (rmap (fitness_of L) rs) (rmap (fitness_of L') rs').
Proof.
  intros Hv Hk H. induction H as [|r r' rs rs' Hr HR IH]; cbn [rmap]; [constructor|]. unfold fitness_of at 1 3, get_att. pose proof (rk_atts _ _ _ _ Hr) as A. destruct (att r) as [t|], (att r') as [t'|]; cbn in A; try contradiction; [|reflexivity]. cbn [of_option rbind].
  destruct (rmap (fitness_of L) rs), (rmap (fitness_of L') rs'); cbn in *; try contradiction; auto. constructor; [|exact IH]. rewrite (ra_fitness _ _ _ A), Hv. apply by_k_mul. exact Hk.
Qed.
Lemma filter_ranked f rs rs' : match f with RouletteWheel _ => proportional h | _ => True end -> Forall2 rr rs rs' -> alike (Forall2 rr) (apply_filter L f rs) (apply_filter L' f rs').
Proof.
  intros Hf H. destruct f as [|n|n|n]; intros g; cbn [apply_filter].
  - auto.
  - assert (HA : alike_res (fun _ _ => True) (rmap (fitness_of L) rs) (rmap (fitness_of L') rs')).
    { clear -H. induction H as [|r r' rs rs' Hr HR IH]; cbn [rmap]; [exact I|]. unfold fitness_of at 1 3, get_att. pose proof (rk_atts _ _ _ _ Hr) as A. destruct (att r), (att r'); cbn in A; try contradiction; [|reflexivity]. cbn [of_option rbind].
      destruct (rmap (fitness_of L) rs), (rmap (fitness_of L') rs'); cbn in *; try contradiction; auto. }
    destruct (rmap (fitness_of L) rs) as [fs|e], (rmap (fitness_of L') rs') as [fs'|e']; cbn in HA; try contradiction; cbn [rbind]; [|auto]. split; [reflexivity|]. unfold last_n.
    assert (HS : Forall2 rr (PyList.sort (fun p q => nlt (fit_or_nan L p) (fit_or_nan L q)) rs) (PyList.sort (fun p q => nlt (fit_or_nan L' p) (fit_or_nan L' q)) rs')).
    { apply sort_same; [|exact H]. intros p q p' q' Hp Hq. apply lt_ranked; assumption. }
    rewrite (L_List.Forall2_len _ _ _ HS). destruct (Nat.eqb n 0); [exact HS|]. apply skipn_same. exact HS.
  - rewrite (L_List.Forall2_len _ _ _ H). apply sample_alike. exact H.
  - destruct Hf as (k & Hk & Hv). pose proof (values_ranked k rs rs' Hv Hk H) as HV. destruct (rmap (fitness_of L) rs) as [fs|e], (rmap (fitness_of L') rs') as [fs'|e']; cbn [alike_res] in HV; try contradiction; [|auto]. cbv zeta.
    pose proof (shares k Hk fs fs' HV) as HW. unfold PyStat.nsum in HW. revert HW. generalize (map (fun v => ndiv v (fold_left nadd fs (Fin 0))) fs), (map (fun v => ndiv v (fold_left nadd fs' (Fin 0))) fs'). intros w w' HW.
    assert (E : map (nlt (Fin 0)) w = map (nlt (Fin 0)) w' /\ forallb (nle (Fin 0)) w = forallb (nle (Fin 0)) w' /\ forallb is_fin w = forallb is_fin w').
    { clear -HW. induction HW as [|a b w w' Hab HW (I1 & I2 & I3)]; cbn [map forallb]; [auto|]. rewrite I1, I2, I3, (nlt_same (Fin 0) a (Fin 0) b (Qeq_refl 0) Hab), (nle_same (Fin 0) a (Fin 0) b (Qeq_refl 0) Hab), (is_fin_same a b Hab). auto. }
    destruct E as (E1 & E2 & E3). rewrite E1, E2, E3, (L_List.Forall2_len _ _ _ H). destruct (_ && _)%bool; [|auto]. apply sample_alike. apply compress_same. exact H.
Qed.
Lemma local_ranked X cache r r' : rr r r' -> local_pred L X cache r = local_pred L' X cache r'.
Proof.
  intros HR. unfold local_pred, rule_predict, get_att. rewrite (rk_cond _ _ _ _ HR), (rk_model _ _ _ _ HR). destruct cache; [|reflexivity]. pose proof (rk_atts _ _ _ _ HR) as A.
  destruct (att r) as [t|], (att r') as [t'|]; cbn in A; try contradiction; [|reflexivity]. destruct A as [_ (_ & _ & _ & E1 & E2)]. cbn. rewrite E1, E2. reflexivity.
Qed.
Lemma tau_ranked mx dim r r' : rr r r' -> tau L mx dim r = tau L' mx dim r'.
Proof.
  intros HR. unfold tau, get_att. pose proof (rk_atts _ _ _ _ HR) as A. destruct (att r) as [t|], (att r') as [t'|]; cbn in A; try contradiction; [|reflexivity]. destruct A as [_ (_ & E1 & E2 & _)]. cbn. rewrite E1, E2. reflexivity.
Qed.
Lemma mix_ranked mx X rs rs' cache : Forall2 rr rs rs' -> mix L mx X rs cache = mix L' mx X rs' cache.
Proof.
  intros HR. unfold mix. rewrite (rmap_eq rr (local_pred L X cache) (local_pred L' X cache) rs rs'); [|intros r r' H; apply local_ranked; assumption|exact HR].
  rewrite (rmap_eq rr (tau L mx (row_len X)) (tau L' mx (row_len X)) rs rs'); [|intros r r' H; apply tau_ranked; exact H|exact HR]. reflexivity.
Qed.
Lemma sub_ranked bits p p' : Forall2 rr p p' -> alike_res (Forall2 rr) (subpopulation L bits p) (subpopulation L' bits p').
Proof. intros H. unfold subpopulation. rewrite (L_List.Forall2_len _ _ _ H). destruct (Nat.eqb _ _); cbn; [apply compress_same; exact H|reflexivity]. Qed.
Lemma predict_ranked mx bits p p' X cache g : fair_mixing h mx -> Forall2 rr p p' -> sol_predict L mx bits p X cache g = sol_predict L' mx bits p' X cache g.
Proof.
  intros HM HP. unfold sol_predict. pose proof (sub_ranked bits p p' HP) as HS. destruct (subpopulation L bits p) as [rs|e], (subpopulation L' bits p') as [rs'|e']; cbn in HS; try contradiction; [|congruence].
  unfold mixing_call. pose proof (filter_ranked (mfilter mx) rs rs' HM HS g) as HF. destruct HS as [|r r' rs rs' H HR]; [reflexivity|].
  destruct (apply_filter L _ _ g) as [[o|e] g1], (apply_filter L' _ _ g) as [[o'|e'] g2]; try contradiction; destruct HF as [-> HF]; [rewrite (mix_ranked mx X o o' cache HF); reflexivity|congruence].
Qed.
Lemma sol_fit_ranked k mx f bits p p' X y : fair_mixing h mx -> Forall2 rr p p' -> alike (ranked_satts k) (sol_fit L mx f bits p X y) (sol_fit L' mx (fun e c n => k (f e c n)) bits p' X y).
Proof.
  intros HM HP g. unfold sol_fit. rewrite (predict_ranked mx bits p p' X true g HM HP). destruct (sol_predict L' mx bits p' X true g) as [[v|e] g']; [|auto]. destruct (_ || _)%bool; [auto|]. split; [reflexivity|]. constructor; cbn; auto.
Qed.

(* ----- discovery ----- *)
Lemma get_att_ranked {B} (f : atts -> B) (f' : atts -> B) r r' : rr r r' -> (forall t t', ranked_atts h t t' -> f t = f' t') -> (let? t := get_att L r in Ok (f t)) = (let? t := get_att L' r' in Ok (f' t)).
Proof. intros H Hf. unfold get_att. pose proof (rk_atts _ _ _ _ H) as A. destruct (att r), (att r'); cbn in A; try contradiction; [|reflexivity]. cbn. rewrite (Hf _ _ A). reflexivity. Qed.
Section Problem.
Variables (D : denv L) (D' : denv L').
Hypothesis HD : ranked_problem h L D D'.
Hypothesis HM : fair_mixing h (dmix D).
Lemma weights_ranked rs rs' : Forall2 rr rs rs' -> matching_weights rs = matching_weights rs'.
Proof.
  intros H. unfold matching_weights. rewrite (rmap_eq rr (fun r => let? t := get_att L r in Ok (match_set t)) (fun r => let? t := get_att L' r in Ok (match_set t)) rs rs'); [reflexivity| |exact H].
  intros r r' Hr. apply get_att_ranked; [exact Hr|]. intros t t' [_ (_ & _ & _ & _ & ->)]. reflexivity.
Qed.
Lemma wheel_ranked use (w : list (rule L) -> St rng (list Q)) (w' : list (rule L') -> St rng (list Q)) n : (forall rs rs', Forall2 rr rs rs' -> alike eq (w rs) (w' rs')) -> alike eq (wheel D use w n) (wheel D' use w' n).
Proof.
  intros HW. destruct HD as [[H1 H2] H3 H4 H5]. unfold wheel. rewrite H1. eapply alike_bind with (R := Forall2 rr).
  - apply alike_lift. unfold subgroup. rewrite H4. destruct (delite D) as [bits|]; [destruct use; [apply sub_ranked|]|]; exact H3.
  - intros rs rs' HR. eapply alike_bind with (R := eq).
    + destruct HR as [|r r' rs rs' Hr HR]; [apply alike_ret; reflexivity|]. eapply alike_bind; [apply HW; constructor; assumption|]. intros p p' <-. apply alike_ret. reflexivity.
    + intros p p' <-. apply alike_same.
Qed.
Lemma origins_ranked o n : alike eq (origins o D n) (origins o D' n).
Proof.
  destruct o as [| |use|use]; cbn [origins]; [rewrite (proj1 (rq_data _ _ _ _ HD)); apply alike_same|rewrite (proj1 (rq_data _ _ _ _ HD)); apply alike_same| |].
  - apply wheel_ranked. intros rs rs' HR. rewrite (weights_ranked rs rs' HR). apply alike_same.
  - apply wheel_ranked. intros rs rs' HR. destruct HD as [[H1 H2] H3 H4 H5]. unfold squared_weights. rewrite H4. destruct (delite D) as [bits|]; [|apply alike_raise]. rewrite <- (L_List.Forall2_len _ _ _ H3), H5, H2, H1.
    intros g. unfold bind. rewrite (predict_ranked (dmix D) (if use then bits else repeat true (length (dpool D))) _ _ (dX D) false g HM H3). destruct (sol_predict L' _ _ _ _ _ g) as [[p|e] g']; [|auto]. destruct (Nat.eqb _ _); cbn; auto.
Qed.
Lemma new_ranked c x : alike rr (new_rule c D x) (new_rule c D' x).
Proof. unfold new_rule. eapply alike_bind; [apply alike_same|]. intros m m' <-. apply alike_lift. rewrite (proj1 (rq_data _ _ _ _ HD)), (proj2 (rq_data _ _ _ _ HD)). apply fitted_ranked. Qed.
Lemma mutant_ranked c mu r r' : rr r r' -> alike rr (mutant c mu D r) (mutant c mu D' r').
Proof. intros HR. unfold mutant. rewrite (rk_cond _ _ _ _ HR). eapply alike_bind; [apply alike_same|]. intros m m' <-. apply alike_lift. rewrite (proj1 (rq_data _ _ _ _ HD)), (proj2 (rq_data _ _ _ _ HD)). apply fitted_ranked. Qed.
End Problem.
Lemma accept_ranked ac r r' y : rr r r' -> accept ac r y = accept ac r' y.
Proof.
  intros H. unfold accept, get_att. pose proof (rk_atts _ _ _ _ H) as A. destruct (att r) as [t|], (att r') as [t'|]; cbn in A; try contradiction; [|reflexivity]. destruct A as [_ (_ & E1 & E2 & _ & E3)]. cbn. rewrite E1, E2, E3. reflexivity.
Qed.
Lemma invalid_ranked ac y rs rs' : Forall2 rr rs rs' -> alike_res (Forall2 rr) (filter_invalid ac y rs) (filter_invalid ac y rs').
Proof.
  induction 1 as [|r r' rs rs' H HR IH]; cbn [filter_invalid]; [constructor|]. rewrite (accept_ranked ac r r' y H). destruct (accept ac r' y) as [ok|e]; cbn [rbind]; [|reflexivity].
  destruct (filter_invalid ac y rs), (filter_invalid ac y rs'); cbn in *; try contradiction; [|exact IH]. destruct ok; [constructor; assumption|exact IH].
Qed.
Lemma valid_ranked r r' : rr r r' -> is_valid r = is_valid r'.
Proof. intros H. unfold is_valid. pose proof (rk_atts _ _ _ _ H) as A. destruct (att r), (att r'); cbn in A; try contradiction; [|reflexivity]. destruct A as [_ (-> & _ & -> & _)]. reflexivity. Qed.
Definition numbered (p : nat * rule L) (p' : nat * rule L') : Prop := fst p = fst p' /\ rr (snd p) (snd p').
Lemma caught_alike {A B} (R : A -> B -> Prop) (m : St rng (list A)) (m' : St rng (list B)) : alike (Forall2 R) m m' ->
  alike (Forall2 R) (fun g => match m g with (Raise ValueError, g') => (Ok [], g') | r => r end) (fun g => match m' g with (Raise ValueError, g') => (Ok [], g') | r => r end).
Proof. intros H g. specialize (H g). destruct (m g) as [[o|e] q], (m' g) as [[o'|e'] q']; try contradiction; destruct H as [<- H]; [auto|]. subst. destruct e'; auto. Qed.
Lemma pick_ranked s rs rs' n : by_rank h s -> Forall2 rr rs rs' -> alike (Forall2 rr) (pick_rules s rs n) (pick_rules s rs' n).
Proof.
  intros HS H. unfold pick_rules. eapply alike_bind with (R := Forall2 numbered).
  - assert (HL : Forall2 numbered (combine (seq 0 (length rs)) rs) (combine (seq 0 (length rs')) rs')).
    { rewrite <- (L_List.Forall2_len _ _ _ H). generalize 0%nat. induction H as [|r r' rs rs' Hr HR IH]; intros i; cbn; [constructor|]. constructor; [split; auto|apply IH]. }
    revert HL. generalize (combine (seq 0 (length rs)) rs), (combine (seq 0 (length rs')) rs'). intros l l' HL. destruct s; cbn [select_rules by_rank] in *.
    + apply alike_ret. unfold fittest_n. apply Forall2_firstn. unfold sort_desc. apply sort_same; [|exact HL]. intros x z x' z' [_ Hx] [_ Hz]. apply lt_ranked; assumption.
    + destruct HS as (k & Hk & Hv).
      assert (HF : Forall2 numbered (filter (fun r => negb (neqb (rfit (snd r)) NInf)) l) (filter (fun r => negb (neqb (rfit (snd r)) NInf)) l')).
      { apply Forall2_filter; [|exact HL]. intros x x' [_ Hx]. unfold rfit. rewrite (by_k_inf k _ _ (value_ranked k _ _ Hv Hk Hx)). reflexivity. }
      revert HF. generalize (filter (fun r => negb (neqb (rfit (snd r)) NInf)) l), (filter (fun r => negb (neqb (rfit (snd r)) NInf)) l'). intros m m' HF.
      apply (caught_alike numbered).
      assert (HA : alike (Forall2 numbered) (match m with [] => choices l n | _ => choices_num m n (map (fun v => ndiv v (PyStat.nsum (map (fun r => rfit (snd r)) m))) (map (fun r => rfit (snd r)) m)) end)
        (match m' with [] => choices l' n | _ => choices_num m' n (map (fun v => ndiv v (PyStat.nsum (map (fun r => rfit (snd r)) m'))) (map (fun r => rfit (snd r)) m')) end)).
      { assert (HV : Forall2 (by_k k) (map (fun r => rfit (snd r)) m) (map (fun r => rfit (snd r)) m')) by (apply (Forall2_map numbered); [intros x x' [_ Hx]; apply value_ranked; assumption|exact HF]).
        pose proof (shares k Hk _ _ HV) as HW. pose proof HF as HF0. destruct HF as [|x x' m m' Hx HM]; [apply alike_choices; exact HL|]. apply choices_num_alike; assumption. }
      destruct HF; exact HA.
    + eapply alike_bind; [apply alike_lift; apply (front_units numbered)|].
      * intros x x' [_ Hx]. unfold rerr. pose proof (rk_atts _ _ _ _ Hx) as A. destruct (att (snd x)), (att (snd x')); cbn in A; try contradiction; [|reflexivity]. destruct A as [_ (_ & -> & _)]. reflexivity.
      * intros x x' z z' [_ Hx] [_ Hz]. unfold rule_volume. rewrite (rk_cond _ _ _ _ Hx), (rk_cond _ _ _ _ Hz). reflexivity.
      * intros x x' z z' [-> _] [-> _]. reflexivity.
      * exact HL.
      * intros f f' HF. apply alike_choices. exact HF.
    + apply alike_choices. exact HL.
  - intros ks ks' HK. apply alike_ret. apply (Forall2_map numbered); [|exact HK]. intros x x' [_ Hx]. exact Hx.
Qed.
Lemma settled_ranked n w w' : Forall2 rr w w' -> settled n w = settled n w'.
Proof.
  intros H. unfold settled. rewrite (L_List.Forall2_len _ _ _ H). f_equal. destruct H as [|r r' w w' Hr HW]; [reflexivity|]. apply (forallb_same rr); [|constructor; assumption]. intros e e' He. apply le_ranked; assumption.
Qed.
Lemma push_ranked n w w' r r' : Forall2 rr w w' -> rr r r' -> Forall2 rr (push n w r) (push n w' r').
Proof. intros HW Hr. unfold push. assert (H : Forall2 rr (w ++ [r]) (w' ++ [r'])) by (apply Forall2_app; [exact HW|constructor; [exact Hr|constructor]]). rewrite (L_List.Forall2_len _ _ _ H). apply skipn_same. exact H. Qed.
Lemma first_ranked w w' : Forall2 rr w w' -> alike_res rr (first_of w) (first_of w').
Proof. intros [|r r' l l' Hr _]; [reflexivity|exact Hr]. Qed.
Section Runs.
Variables (D : denv L) (D' : denv L').
Hypothesis HD : ranked_problem h L D D'.
Hypothesis HM : fair_mixing h (dmix D).
Lemma es_loop_ranked c n : by_rank h (es_sel c) -> forall e e' w w', rr e e' -> Forall2 rr w w' -> alike rr (es_loop c D n e w) (es_loop c D' n e' w').
Proof.
  intros HS. induction n as [|n IH]; intros e e' w w' He HW; cbn [es_loop]; [apply alike_ret; exact He|]. cbv zeta.
  pose proof (push_ranked (es_delay c) w w' e e' HW He) as HP. eapply alike_bind; [apply alike_repeat; apply (mutant_ranked D D' HD (es_d c) (es_mut c) e e' He)|]. intros k k' HK.
  pose proof (Forall2_filter rr is_valid is_valid k k' valid_ranked HK) as HV. destruct HV as [|v v' V V' Hv HV]; [apply IH; assumption|].
  assert (HVV : Forall2 rr (v :: V) (v' :: V')) by (constructor; assumption).
  eapply alike_bind with (R := rr).
  - destruct (es_operator c); [| | |apply alike_ret; exact He].
    + eapply alike_bind; [apply pick_ranked; [exact HS|apply Forall2_app; [exact HVV|constructor; [exact He|constructor]]]|]. intros s s' Hs. apply alike_lift, first_ranked. exact Hs.
    + eapply alike_bind; [apply pick_ranked; [exact HS|exact HVV]|]. intros s s' Hs. apply alike_lift, first_ranked. exact Hs.
    + eapply alike_bind; [apply pick_ranked; [exact HS|exact HVV]|]. intros s s' Hs. apply alike_lift, first_ranked. exact Hs.
  - intros f f' Hf. destruct (es_operator c); try (apply IH; assumption). rewrite (settled_ranked _ _ _ HP). destruct (settled _ _); [apply alike_lift, first_ranked; exact HP|apply IH; assumption].
Qed.
Lemma initial_ranked c n : alike (Forall2 rr) (es_initial c D n) (es_initial c D' n).
Proof. unfold es_initial. eapply alike_bind; [apply (origins_ranked D D' HD HM)|]. intros xs xs' <-. apply (alike_mmap eq rr); [intros x x' <-; apply (new_ranked D D' HD)|apply Forall2_eq]. Qed.
Lemma es_ranked c n kids : by_rank h (es_sel c) -> alike (Forall2 rr) (es_optimize c D n kids) (es_optimize c D' n kids).
Proof.
  intros HS. unfold es_optimize. rewrite (proj2 (rq_data _ _ _ _ HD)). eapply alike_bind; [apply (origins_ranked D D' HD HM)|]. intros xs xs' <-.
  eapply alike_bind; [apply (alike_mmap eq rr); [intros x x' <-; apply (new_ranked D D' HD)|apply Forall2_eq]|]. intros i i' Hi.
  eapply alike_bind with (R := Forall2 rr); [apply alike_lift|intros rs rs' HR; apply alike_lift, invalid_ranked; exact HR].
  apply (alike_rmap (fun t t' => rr (fst t) (fst t') /\ snd t = snd t')).
  - intros t t' [Ht Hg]. unfold es_task. rewrite Hg. pose proof (es_loop_ranked c (es_iter c) HS (fst t) (fst t') [] [] Ht (Forall2_nil _) (snd t')) as H. destruct (es_loop c D _ _ _ _) as [[o|e] g1], (es_loop c D' _ _ _ _) as [[o'|e'] g2]; try contradiction; apply H.
  - generalize (map kids (seq 0 n)). induction Hi as [|r r' i i' Hr Hi IH]; intros [|k ks]; cbn; constructor; auto.
Qed.
Lemma rs_ranked c n : by_rank h (rs_sel c) -> alike (Forall2 rr) (rs_optimize c D n) (rs_optimize c D' n).
Proof.
  intros HS. unfold rs_optimize. rewrite (proj2 (rq_data _ _ _ _ HD)). eapply alike_bind with (R := Forall2 (Forall2 rr)).
  - apply alike_repeat. unfold rs_one. eapply alike_bind; [apply (origins_ranked D D' HD HM)|]. intros xs xs' <-.
    eapply alike_bind; [apply (alike_mmap eq rr); [intros x x' <-; apply (new_ranked D D' HD)|apply Forall2_eq]|]. intros i i' Hi. apply pick_ranked; assumption.
  - intros o o' HO. apply alike_lift, invalid_ranked. induction HO as [|l l' o o' Hl HO IH]; cbn; [constructor|]. apply Forall2_app; assumption.
Qed.
End Runs.
End Rules.
