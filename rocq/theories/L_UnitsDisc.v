(* Discovery in other units. *)
From Coq Require Import Lia.
From Verif Require Import PyNum PyList PyMon PyRng L_Num L_List PyStat M_Matching M_Rule M_RuleGen M_Mixing M_GenomeOps M_Discovery L_Invariance S_Units L_Units.
From Coq Require Import Lqa.

Section Disc.
Variables (a : Q) (shifts : list Q).
Hypothesis Ha : 0 < a.
Variables L L' : learner.
Hypothesis HU : unitless a shifts L L'.
Notation point := (same_point a shifts). Notation box := (same_bounds a shifts). Notation rbox := (rescaled_box a shifts).
Notation rrule := (rescaled_rule a shifts L L').

Lemma same_count X X' : Forall2 point X X' -> @length (list Q) X = @length (list Q) X'.
Proof. intros H. exact (L_List.Forall2_len _ _ _ H). Qed.
Lemma same_rows X X' : Forall2 point X X' -> @length row X = @length row X'.
Proof. intros H. exact (L_List.Forall2_len _ _ _ H). Qed.
Lemma fitted_units m m' X X' y : rbox m m' -> Forall2 point X X' -> alike_res rrule (fitted m X y) (fitted m' X' y).
Proof.
  intros HB HX. unfold fitted, rule_fit. cbn [cond fresh_rule att]. rewrite (match_same a shifts Ha m m' X X' HB HX). rewrite <- ?(same_count _ _ HX), <- ?(same_rows _ _ HX). destruct (match_call m X) as [ms|e]; [|reflexivity].
  destruct (negb _); [constructor; [exact HB|exact I|reflexivity]|]. destruct (Nat.eqb _ _); [|reflexivity].
  pose proof (compress_same point X X' HX ms) as HC. constructor; [exact HB| |].
  - cbn [trained fst rmodel]. intros x x' Hx. apply (ul_model _ _ _ _ HU); assumption.
  - cbn [trained snd att]. unfold trained. cbn [snd].
    assert (EP : map (mpred L (train L (compress X ms) (compress y ms))) (compress X ms) = map (mpred L' (train L' (compress X' ms) (compress y ms))) (compress X' ms)).
    { apply (map_same point); [|exact HC]. intros x x' Hx. symmetry. apply (ul_model _ _ _ _ HU); assumption. }
    pose proof (same_count _ _ HC) as EC. unfold matrix, row in *. rewrite EP, EC, (ul_fitness _ _ _ _ HU m m' _ HB). reflexivity.
Qed.

(* ----- predictions ----- *)
Lemma fitness_units rs rs' : Forall2 rrule rs rs' -> rmap (fitness_of L) rs = rmap (fitness_of L') rs'.
Proof. apply rmap_eq. intros r r' H. unfold fitness_of, get_att. rewrite (rr_atts _ _ _ _ _ _ H). reflexivity. Qed.
Lemma fit_units r r' : rrule r r' -> fit_or_nan L r = fit_or_nan L' r'.
Proof. intros H. unfold fit_or_nan. rewrite (rr_atts _ _ _ _ _ _ H). reflexivity. Qed.
Lemma sample_alike {A B} (R : A -> B -> Prop) k l l' : Forall2 R l l' -> alike (Forall2 R) (sample l k) (sample l' k).
Proof. intros H g. pose proof (sample_same R k l l' g H) as HS. destruct (sample l k g) as [[o|e] g1], (sample l' k g) as [[o'|e'] g2]; try contradiction; destruct HS; auto. Qed.
Lemma filter_units f rs rs' : Forall2 rrule rs rs' -> alike (Forall2 rrule) (apply_filter L f rs) (apply_filter L' f rs').
Proof.
  intros H. destruct f as [|n|n|n]; intros g; cbn [apply_filter].
  - auto.
  - rewrite (fitness_units _ _ H). destruct (rmap _ rs') as [fs|e]; cbn [rbind]; [|auto]. split; [reflexivity|]. unfold last_n.
    assert (HS : Forall2 rrule (PyList.sort (fun p q => nlt (fit_or_nan L p) (fit_or_nan L q)) rs) (PyList.sort (fun p q => nlt (fit_or_nan L' p) (fit_or_nan L' q)) rs')).
    { apply sort_same; [|exact H]. intros p q p' q' Hp Hq. rewrite (fit_units p p' Hp), (fit_units q q' Hq). reflexivity. }
    rewrite (L_List.Forall2_len _ _ _ HS). destruct (Nat.eqb n 0); [exact HS|]. apply skipn_same. exact HS.
  - rewrite (L_List.Forall2_len _ _ _ H). apply sample_alike. exact H.
  - rewrite (fitness_units _ _ H). destruct (rmap _ rs') as [fs|e]; [|auto]. destruct (_ && _)%bool; [|auto]. rewrite (L_List.Forall2_len _ _ _ H). apply sample_alike. apply compress_same. exact H.
Qed.
Lemma local_units X X' cache r r' : Forall2 point X X' -> rrule r r' -> local_pred L X cache r = local_pred L' X' cache r'.
Proof.
  intros HX HR. unfold local_pred, get_att. rewrite (rr_atts _ _ _ _ _ _ HR), ?(same_count _ _ HX), ?(same_rows _ _ HX). destruct cache; [reflexivity|]. rewrite (match_same a shifts Ha _ _ X X' (rr_box _ _ _ _ _ _ HR) HX).
  destruct (match_call (cond r) X) as [ms|e]; [|reflexivity]. cbn [rbind]. destruct (existsb _ ms); [|reflexivity].
  assert (EP : rule_predict L r (compress X ms) = rule_predict L' r' (compress X' ms)).
  { unfold rule_predict. pose proof (rr_model _ _ _ _ _ _ HR) as HM. destruct (rmodel r) as [p|], (rmodel r') as [p'|]; cbn in HM; try contradiction; [|reflexivity]. f_equal. apply (map_same point); [|apply compress_same; exact HX]. intros x x' Hx. symmetry. apply HM. exact Hx. }
  unfold matrix, row in *. rewrite EP. reflexivity.
Qed.
Lemma row_len_units X X' : Forall2 point X X' -> row_len X = row_len X'.
Proof. intros [|x x' X0 X0' Hx _]; [reflexivity|]. exact (point_len a shifts x x' Hx). Qed.
Lemma mix_units mx X X' rs rs' cache : Forall2 point X X' -> Forall2 rrule rs rs' -> mix L mx X rs cache = mix L' mx X' rs' cache.
Proof.
  intros HX HR. unfold mix. rewrite (rmap_eq rrule (local_pred L X cache) (local_pred L' X' cache) rs rs'); [|intros r r' H; apply local_units; assumption|exact HR].
  rewrite (rmap_eq rrule (tau L mx (row_len X)) (tau L' mx (row_len X')) rs rs'); [|intros r r' H; unfold tau, get_att; rewrite (rr_atts _ _ _ _ _ _ H), (row_len_units _ _ HX); reflexivity|exact HR].
  rewrite ?(same_count _ _ HX), ?(same_rows _ _ HX). reflexivity.
Qed.
Lemma call_units mx X X' rs rs' cache g : Forall2 point X X' -> Forall2 rrule rs rs' -> mixing_call L mx X rs cache g = mixing_call L' mx X' rs' cache g.
Proof.
  intros HX HR. unfold mixing_call. pose proof (filter_units (mfilter mx) rs rs' HR g) as HF. rewrite ?(same_count _ _ HX), ?(same_rows _ _ HX). destruct HR as [|r r' rs rs' H HR]; [reflexivity|].
  destruct (apply_filter L _ _ g) as [[o|e] g1], (apply_filter L' _ _ g) as [[o'|e'] g2]; try contradiction; destruct HF as [-> HF]; [rewrite (mix_units mx X X' o o' cache HX HF); reflexivity|congruence].
Qed.
Lemma sub_units bits p p' : Forall2 rrule p p' -> alike_res (Forall2 rrule) (subpopulation L bits p) (subpopulation L' bits p').
Proof. intros H. unfold subpopulation. rewrite (L_List.Forall2_len _ _ _ H). destruct (Nat.eqb _ _); cbn; [apply compress_same; exact H|reflexivity]. Qed.
Lemma predict_units mx bits p p' X X' cache g : Forall2 rrule p p' -> Forall2 point X X' -> sol_predict L mx bits p X cache g = sol_predict L' mx bits p' X' cache g.
Proof. intros HP HX. unfold sol_predict. pose proof (sub_units bits p p' HP) as HS. destruct (subpopulation L bits p), (subpopulation L' bits p'); cbn in HS; try contradiction; [apply call_units; assumption|congruence]. Qed.
Lemma sol_fit_units mx f bits p p' X X' y g : Forall2 rrule p p' -> Forall2 point X X' -> sol_fit L mx f bits p X y g = sol_fit L' mx f bits p' X' y g.
Proof. intros HP HX. unfold sol_fit. rewrite (predict_units mx bits p p' X X' true g HP HX). reflexivity. Qed.

(* ----- origins ----- *)
Lemma bounds_units X X' : Forall2 point X X' -> alike_res box (estimate_bounds X) (estimate_bounds X').
Proof.
  intros [|x x' X0 X0' Hx HX]; [reflexivity|]. cbn [estimate_bounds alike_res]. apply (each3_combine (in_units a) (in_units a)).
  - revert x x' Hx. induction HX as [|z z' Z Z' Hz HZ IH]; intros x x' Hx; cbn [col_min]; [exact Hx|]. apply IH. eapply each3_map2; [|exact Hx|exact Hz]. intros; apply unit_min; assumption.
  - revert x x' Hx. induction HX as [|z z' Z Z' Hz HZ IH]; intros x x' Hx; cbn [col_max]; [exact Hx|]. apply IH. eapply each3_map2; [|exact Hx|exact Hz]. intros; apply unit_max; assumption.
Qed.
Lemma uniform_units X X' n : Forall2 point X X' -> alike (Forall2 point) (uniform_input X n) (uniform_input X' n).
Proof.
  intros HX. unfold uniform_input. eapply alike_bind; [apply alike_lift, bounds_units; exact HX|]. intros b b' Hb.
  induction n as [|n IH]; [apply alike_ret; constructor|]. eapply alike_bind with (R := point).
  - intros g. destruct (each3_len _ _ _ _ Hb) as [E1 E2]. rewrite E1, E2. pose proof (draws_len (length shifts) g) as E. destruct (draws (length shifts) g) as [qs g']. cbn [fst] in E. split; [reflexivity|].
    eapply each3_draws; [|exact Hb|exact E]. intros s l l' q [A1 A2]. apply unit_uniform; assumption.
  - intros x x' Hx. eapply alike_bind; [exact IH|]. intros xs xs' Hxs. apply alike_ret. constructor; assumption.
Qed.
Section Problem.
Variables (D : denv L) (D' : denv L').
Hypothesis HD : rescaled_problem a shifts L L' D D'.
Lemma weights_units rs rs' : Forall2 rrule rs rs' -> alike_res eq (matching_weights rs) (matching_weights rs').
Proof.
  intros H. unfold matching_weights. rewrite (rmap_eq rrule (fun r => let? t := get_att L r in Ok (match_set t)) (fun r => let? t := get_att L' r in Ok (match_set t)) rs rs'); [|intros r r' Hr; unfold get_att; rewrite (rr_atts _ _ _ _ _ _ Hr); reflexivity|exact H].
  destruct (rmap _ rs') as [[|s rest]|e]; cbn; try reflexivity. destruct (forallb _ rest); reflexivity.
Qed.
Lemma wheel_units use (w : list (rule L) -> St rng (list Q)) (w' : list (rule L') -> St rng (list Q)) n : (forall rs rs', Forall2 rrule rs rs' -> alike eq (w rs) (w' rs')) -> alike (Forall2 point) (wheel D use w n) (wheel D' use w' n).
Proof.
  intros HW. destruct HD as [H1 H2 H3 H4 H5]. unfold wheel. eapply alike_bind with (R := Forall2 rrule).
  - apply alike_lift. unfold subgroup. rewrite H4. destruct (delite D') as [bits|]; [destruct use; [apply sub_units|]|]; exact H3.
  - intros rs rs' HR. eapply alike_bind with (R := eq).
    + destruct HR as [|r r' rs rs' Hr HR]; [apply alike_ret; reflexivity|]. eapply alike_bind; [apply HW; constructor; assumption|]. intros p p' <-. apply alike_ret. reflexivity.
    + intros p p' <-. destruct p as [ws|]; [apply alike_choices_p; exact H1|apply alike_choices; exact H1].
Qed.
Lemma squared_units use : alike eq (squared_weights D use) (squared_weights D' use).
Proof.
  destruct HD as [H1 H2 H3 H4 H5]. unfold squared_weights. rewrite <- H4. destruct (delite D) as [bits|]; [|apply alike_raise]. rewrite <- (L_List.Forall2_len _ _ _ H3), <- H5, <- H2.
  intros g. unfold bind. rewrite (predict_units (dmix D) (if use then bits else repeat true (length (dpool D))) _ _ _ _ false g H3 H1). destruct (sol_predict L' _ _ _ _ _ g) as [[p|e] g']; [|auto]. destruct (Nat.eqb _ _); cbn; auto.
Qed.
Lemma origins_units o n : alike (Forall2 point) (origins o D n) (origins o D' n).
Proof.
  destruct HD as [H1 H2 H3 H4 H5]. destruct o as [| |use|use]; cbn [origins]; [apply uniform_units; exact H1|apply alike_choices; exact H1| |].
  - apply wheel_units. intros rs rs' HR. apply alike_lift, weights_units. exact HR.
  - apply wheel_units. intros rs rs' HR. apply squared_units.
Qed.

(* ----- rules ----- *)
Variables c c' : dcfg.
Hypothesis HC : rescaled_settings a shifts c c'.
Lemma new_units x x' : point x x' -> alike rrule (new_rule c D x) (new_rule c' D' x').
Proof.
  intros Hx. destruct HC as [C1 C2 C3 C4 C5 C6]. unfold new_rule. rewrite C1, C2. eapply alike_bind; [apply init_same; eassumption|]. intros m m' Hm. apply alike_lift. rewrite <- (rp_y _ _ _ _ _ _ HD). apply fitted_units; [apply constrain_same; assumption|apply (rp_X _ _ _ _ _ _ HD)].
Qed.
Lemma mutant_units mu mu' r r' : rescaled_mutation a mu mu' -> rrule r r' -> alike rrule (mutant c mu D r) (mutant c' mu' D' r').
Proof.
  intros HM HR. unfold mutant. eapply alike_bind; [apply mutate_rule_same; [exact Ha|exact HM|apply (rr_box _ _ _ _ _ _ HR)]|]. intros m m' Hm. apply alike_lift. rewrite <- (rp_y _ _ _ _ _ _ HD). apply fitted_units; [apply constrain_same; [exact Ha|apply (set_bounds _ _ _ _ HC)|exact Hm]|apply (rp_X _ _ _ _ _ _ HD)].
Qed.
Lemma accept_units ac r r' y : rrule r r' -> accept ac r y = accept ac r' y.
Proof. intros H. unfold accept, get_att. rewrite (rr_atts _ _ _ _ _ _ H). reflexivity. Qed.
Lemma invalid_units ac y rs rs' : Forall2 rrule rs rs' -> alike_res (Forall2 rrule) (filter_invalid ac y rs) (filter_invalid ac y rs').
Proof.
  induction 1 as [|r r' rs rs' H HR IH]; cbn [filter_invalid]; [constructor|]. rewrite (accept_units ac r r' y H). destruct (accept ac r' y) as [ok|e]; cbn [rbind]; [|reflexivity].
  destruct (filter_invalid ac y rs), (filter_invalid ac y rs'); cbn in *; try contradiction; [|exact IH]. destruct ok; [constructor; assumption|exact IH].
Qed.
Lemma rfit_units r r' : rrule r r' -> rfit r = rfit r'.
Proof. apply fit_units. Qed.
Lemma rerr_units r r' : rrule r r' -> rerr r = rerr r'.
Proof. intros H. unfold rerr. rewrite (rr_atts _ _ _ _ _ _ H). reflexivity. Qed.
Lemma valid_units r r' : rrule r r' -> is_valid r = is_valid r'.
Proof. intros H. unfold is_valid. rewrite (rr_atts _ _ _ _ _ _ H). reflexivity. Qed.
End Problem.

(* ----- selection ----- *)
Section Select.
Context {A B : Type}.
Variables (R : A -> B -> Prop) (fit err : A -> num) (vol : A -> Q) (same : A -> A -> bool) (fit' err' : B -> num) (vol' : B -> Q) (same' : B -> B -> bool).
Hypothesis Hfit : forall x x', R x x' -> fit x = fit' x'.
Hypothesis Herr : forall x x', R x x' -> err x = err' x'.
Hypothesis Hvol : forall x x' z z', R x x' -> R z z' -> qlt (vol x) (vol z) = qlt (vol' x') (vol' z').
Hypothesis Hsame : forall x x' z z', R x x' -> R z z' -> same x z = same' x' z'.
Lemma beats_units x x' z z' : R x x' -> R z z' -> beats err vol x z = beats err' vol' x' z'.
Proof. intros H1 H2. unfold beats. rewrite (Herr _ _ H1), (Herr _ _ H2), (Hvol _ _ _ _ H2 H1). reflexivity. Qed.
Lemma remove_units x x' l l' : R x x' -> Forall2 R l l' -> Forall2 R (remove_first same x l) (remove_first same' x' l').
Proof. intros Hx. induction 1 as [|z z' l l' Hz HF IH]; cbn [remove_first]; [constructor|]. rewrite (Hsame _ _ _ _ Hx Hz). destruct (same' x' z'); [exact HF|constructor; assumption]. Qed.
Lemma nth_error_units l l' i : Forall2 R l l' -> match nth_error l i, nth_error l' i with Some x, Some x' => R x x' | None, None => True | _, _ => False end.
Proof. intros H. revert i. induction H as [|x x' l l' Hx HF IH]; intros [|i]; cbn; auto. apply IH. Qed.
Lemma scan_units k : forall l l' i r r' add, Forall2 R l l' -> R r r' -> Forall2 R (fst (nd_scan err vol same k l i r add)) (fst (nd_scan err' vol' same' k l' i r' add)) /\ snd (nd_scan err vol same k l i r add) = snd (nd_scan err' vol' same' k l' i r' add).
Proof.
  induction k as [|k IH]; intros l l' i r r' add HL HR; cbn [nd_scan]; [auto|]. pose proof (nth_error_units l l' i HL) as HN. destruct (nth_error l i) as [x|], (nth_error l' i) as [x'|]; try contradiction; [|auto].
  rewrite (beats_units _ _ _ _ HN HR), (beats_units _ _ _ _ HR HN). destruct (beats err' vol' x' r'); [auto|]. destruct (beats err' vol' r' x'); apply IH; auto. apply remove_units; assumption.
Qed.
Lemma step_units l l' r r' : Forall2 R l l' -> R r r' -> Forall2 R (nd_step err vol same l r) (nd_step err' vol' same' l' r').
Proof.
  intros HL HR. unfold nd_step. rewrite <- (L_List.Forall2_len _ _ _ HL). destruct (scan_units (length l) l l' 0 r r' false HL HR) as [H1 H2].
  destruct (nd_scan err vol same (length l) l 0 r false) as [p b], (nd_scan err' vol' same' (length l) l' 0 r' false) as [p' b']. cbn [fst snd] in *. subst b'. destruct b; [|exact H1]. apply Forall2_app; [exact H1|constructor; [exact HR|constructor]].
Qed.
Lemma front_units l l' : Forall2 R l l' -> alike_res (Forall2 R) (nd_front err vol same l) (nd_front err' vol' same' l').
Proof.
  intros [|x x' l0 l0' Hx HL]; [reflexivity|]. cbn [nd_front alike_res]. assert (H1 : Forall2 R [x] [x']) by (constructor; [exact Hx|constructor]). revert H1. generalize [x], [x']. induction HL as [|z z' l0 l0' Hz HL IH]; intros w w' HW; cbn [fold_left]; [exact HW|]. apply IH. apply step_units; assumption.
Qed.
Lemma caught_units (d : St rng (list A)) (d' : St rng (list B)) : alike (Forall2 R) d d' ->
  alike (Forall2 R) (fun g => match d g with (Raise ValueError, g') => (Ok [], g') | r => r end) (fun g => match d' g with (Raise ValueError, g') => (Ok [], g') | r => r end).
Proof.
  intros H g. specialize (H g). destruct (d g) as [[o|e] g1], (d' g) as [[o'|e'] g2]; try contradiction; [exact H|]. destruct H as [-> ->]. destruct e'; auto.
Qed.
Lemma select_units s l l' n : Forall2 R l l' -> alike (Forall2 R) (select_rules fit err vol same s l n) (select_rules fit' err' vol' same' s l' n).
Proof.
  intros HL. destruct s; cbn [select_rules].
  - apply alike_ret. unfold fittest_n. apply Forall2_firstn. unfold sort_desc. apply sort_same; [|exact HL]. intros x z x' z' Hx Hz. rewrite (Hfit _ _ Hx), (Hfit _ _ Hz). reflexivity.
  - set (p := fun r => negb (neqb (fit r) NInf)). set (p' := fun r => negb (neqb (fit' r) NInf)).
    assert (HF : Forall2 R (filter p l) (filter p' l')) by (apply Forall2_filter; [|exact HL]; intros x x' Hx; unfold p, p'; rewrite (Hfit _ _ Hx); reflexivity).
    assert (HA : alike (Forall2 R) (match filter p l with [] => choices l n | _ => let fs := map fit (filter p l) in choices_num (filter p l) n (map (fun f => ndiv f (nsum fs)) fs) end)
      (match filter p' l' with [] => choices l' n | _ => let fs := map fit' (filter p' l') in choices_num (filter p' l') n (map (fun f => ndiv f (nsum fs)) fs) end)).
    { destruct HF as [|x x' f f' Hx HF]; [apply alike_choices; exact HL|]. cbv zeta. rewrite <- (map_same R fit fit' (x :: f) (x' :: f') Hfit) by (constructor; assumption).
      intros g. unfold choices_num. destruct (finites _) as [qs|]; [|auto]. apply alike_choices_p. constructor; assumption. }
    exact (caught_units _ _ HA).
  - eapply alike_bind; [apply alike_lift, front_units; exact HL|]. intros f f' HF. apply alike_choices. exact HF.
  - apply alike_choices. exact HL.
Qed.
End Select.
Lemma pick_units s rs rs' n : Forall2 rrule rs rs' -> alike (Forall2 rrule) (pick_rules s rs n) (pick_rules s rs' n).
Proof.
  intros H. unfold pick_rules. eapply alike_bind with (R := Forall2 (fun p p' => fst p = fst p' /\ rrule (snd p) (snd p'))).
  - apply select_units.
    + intros x x' [_ Hx]. apply rfit_units. exact Hx.
    + intros x x' [_ Hx]. apply rerr_units. exact Hx.
    + intros x x' z z' [_ Hx] [_ Hz]. unfold rule_volume. symmetry. apply (volume_less a shifts Ha); [apply (rr_box _ _ _ _ _ _ Hx)|apply (rr_box _ _ _ _ _ _ Hz)].
    + intros x x' z z' [-> _] [-> _]. reflexivity.
    + rewrite <- (L_List.Forall2_len _ _ _ H). generalize 0%nat. induction H as [|r r' rs rs' Hr HR IH]; intros i; cbn; [constructor|]. constructor; [auto|apply IH].
  - intros ks ks' HK. apply alike_ret. apply (Forall2_map (fun p p' => fst p = fst p' /\ rrule (snd p) (snd p'))); [|exact HK]. intros x x' [_ Hx]. exact Hx.
Qed.

(* ----- the evolution strategy and random search ----- *)
Section Runs.
Variables (D : denv L) (D' : denv L').
Hypothesis HD : rescaled_problem a shifts L L' D D'.
Lemma settled_units n w w' : Forall2 rrule w w' -> settled n w = settled n w'.
Proof.
  intros H. unfold settled. rewrite (L_List.Forall2_len _ _ _ H). f_equal. destruct H as [|r r' w w' Hr HW]; [reflexivity|]. apply (forallb_same rrule); [|constructor; assumption]. intros e e' He. rewrite (rfit_units e e' He), (rfit_units r r' Hr). reflexivity.
Qed.
Lemma push_units n w w' r r' : Forall2 rrule w w' -> rrule r r' -> Forall2 rrule (push n w r) (push n w' r').
Proof. intros HW Hr. unfold push. assert (H : Forall2 rrule (w ++ [r]) (w' ++ [r'])) by (apply Forall2_app; [exact HW|constructor; [exact Hr|constructor]]). rewrite (L_List.Forall2_len _ _ _ H). apply skipn_same. exact H. Qed.
Lemma first_units w w' : Forall2 rrule w w' -> alike_res rrule (first_of w) (first_of w').
Proof. intros [|r r' l l' Hr _]; [reflexivity|exact Hr]. Qed.
Variables c c' : escfg.
Hypothesis HS : rescaled_settings a shifts (es_d c) (es_d c').
Hypothesis HM : rescaled_mutation a (es_mut c) (es_mut c').
Hypothesis Hrest : es_iter c = es_iter c' /\ es_lambda c = es_lambda c' /\ es_operator c = es_operator c' /\ es_delay c = es_delay c' /\ es_sel c = es_sel c'.
Lemma loop_units n : forall e e' w w', rrule e e' -> Forall2 rrule w w' -> alike rrule (es_loop c D n e w) (es_loop c' D' n e' w').
Proof.
  destruct Hrest as (H1 & H2 & H3 & H4 & H5). induction n as [|n IH]; intros e e' w w' He HW; cbn [es_loop]; [apply alike_ret; exact He|]. cbv zeta. rewrite <- H4, <- H3, <- H2, <- H5.
  pose proof (push_units (es_delay c) w w' e e' HW He) as HP. eapply alike_bind; [apply alike_repeat; apply (mutant_units D D' HD (es_d c) (es_d c') HS _ _ e e' HM He)|]. intros k k' HK.
  pose proof (Forall2_filter rrule is_valid is_valid k k' valid_units HK) as HV. destruct HV as [|v v' V V' Hv HV]; [apply IH; assumption|].
  assert (HVV : Forall2 rrule (v :: V) (v' :: V')) by (constructor; assumption).
  eapply alike_bind with (R := rrule).
  - destruct (es_operator c); [| | |apply alike_ret; exact He].
    + eapply alike_bind; [apply pick_units; apply Forall2_app; [exact HVV|constructor; [exact He|constructor]]|]. intros s s' Hs. apply alike_lift, first_units. exact Hs.
    + eapply alike_bind; [apply pick_units; exact HVV|]. intros s s' Hs. apply alike_lift, first_units. exact Hs.
    + eapply alike_bind; [apply pick_units; exact HVV|]. intros s s' Hs. apply alike_lift, first_units. exact Hs.
  - intros f f' Hf. destruct (es_operator c); try (apply IH; assumption). rewrite (settled_units _ _ _ HP). destruct (settled _ _); [apply alike_lift, first_units; exact HP|apply IH; assumption].
Qed.
Lemma es_units n kids : alike (Forall2 rrule) (es_optimize c D n kids) (es_optimize c' D' n kids).
Proof.
  unfold es_optimize. rewrite <- (set_origin _ _ _ _ HS), <- (set_accept _ _ _ _ HS), <- (rp_y _ _ _ _ _ _ HD). eapply alike_bind; [apply (origins_units D D' HD)|]. intros xs xs' Hx.
  eapply alike_bind; [apply (alike_mmap point rrule); [|exact Hx]; intros x x' H; apply (new_units D D' HD _ _ HS); exact H|]. intros i i' Hi.
  eapply alike_bind with (R := Forall2 rrule); [apply alike_lift|intros rs rs' HR; apply alike_lift, invalid_units; exact HR].
  apply (alike_rmap (fun t t' => rrule (fst t) (fst t') /\ snd t = snd t')).
  - intros t t' [Ht Hg]. unfold es_task. rewrite Hg, <- (proj1 Hrest). pose proof (loop_units (es_iter c) (fst t) (fst t') [] [] Ht (Forall2_nil _) (snd t')) as H. destruct (es_loop c D _ _ _ _) as [[o|e] g1], (es_loop c' D' _ _ _ _) as [[o'|e'] g2]; try contradiction; apply H.
  - generalize (map kids (seq 0 n)). induction Hi as [|r r' i i' Hr Hi IH]; intros [|k ks]; cbn; constructor; auto.
Qed.
End Runs.
Lemma rs_units D D' c c' n : rescaled_problem a shifts L L' D D' -> rescaled_settings a shifts (rs_d c) (rs_d c') -> rs_generated c = rs_generated c' -> rs_sel c = rs_sel c' -> alike (Forall2 rrule) (rs_optimize c D n) (rs_optimize c' D' n).
Proof.
  intros HD HS H1 H2. unfold rs_optimize. rewrite <- (set_accept _ _ _ _ HS), <- (rp_y _ _ _ _ _ _ HD). eapply alike_bind with (R := Forall2 (Forall2 rrule)).
  - apply alike_repeat. unfold rs_one. rewrite <- (set_origin _ _ _ _ HS), <- H1, <- H2. eapply alike_bind; [apply (origins_units D D' HD)|]. intros xs xs' Hx.
    eapply alike_bind; [apply (alike_mmap point rrule); [|exact Hx]; intros x x' H; apply (new_units D D' HD _ _ HS); exact H|]. intros i i' Hi. apply pick_units. exact Hi.
  - intros o o' HO. apply alike_lift, invalid_units. induction HO as [|l l' o o' Hl HO IH]; cbn; [constructor|]. apply Forall2_app; assumption.
Qed.
End Disc.
