(* Mixing and discovery with another experience_weight. *)
From Coq Require Import Lia.
From Verif Require Import PyNum PyList PyMon PyRng L_Num L_List M_Matching M_Rule M_RuleGen M_Mixing M_GenomeOps M_Discovery L_Discovery L_Mixing L_Invariance S_Units L_Units S_Order S_Repeat L_Repeat S_Weight.
From Coq Require Import Lqa.

Section Weight.
Variable L : learner.
Notation rr := (@same_measured L).
(* ----- prediction ----- *)
Lemma local_form X cache (r : rule L) : alike_res (local_rel 1 (length X)) (local_pred L X cache r) (local_pred L X cache r).
Proof.
  assert (HS : forall fl vs row, scatter (length X) fl vs = Ok row -> local_rel 1 (length X) (fl, row) (fl, row)).
  { intros fl vs row. unfold scatter, local_rel. cbn [fst snd]. rewrite !rep_one. destruct (Nat.eqb_spec (length fl) (length X)) as [E|E]; cbn [negb]; [|discriminate]. intros H. split; [reflexivity|]. split; [apply Forall2_Qeq_refl|]. split; [exact E|].
    destruct (Nat.eqb _ _); [injection H as <-; eexists; reflexivity|]. destruct vs as [|v [|v2 vs]]; try discriminate. injection H as <-. eexists. reflexivity. }
  unfold local_pred. destruct cache.
  - destruct (get_att L r) as [t|e]; cbn [rbind]; [|reflexivity]. destruct (scatter _ _ _) eqn:E; cbn [rbind alike_res]; [eapply HS; exact E|reflexivity].
  - destruct (match_call _ _) as [ms|e] eqn:EM; cbn [rbind]; [|reflexivity]. apply rmap_len in EM. destruct (existsb _ ms) eqn:EE.
    + destruct (rule_predict L r _) as [p|e]; cbn [rbind]; [|reflexivity]. destruct (scatter _ _ _) eqn:E; cbn [rbind alike_res]; [eapply HS; exact E|reflexivity].
    + cbn [alike_res]. unfold local_rel. cbn [fst snd]. rewrite !rep_one. repeat split; auto; [apply Forall2_Qeq_refl|]. exists []. rewrite fill_none by exact EE. rewrite EM. reflexivity.
Qed.
Lemma cap_pos l u x : not_negative u -> 0 <= x -> 0 <= cap l u x.
Proof.
  intros Hu Hx. unfold cap. assert (H1 : 0 <= match l with Some l => qmax x l | None => x end) by (destruct l as [l|]; [unfold qmax; destruct (qle_spec x l); lra|exact Hx]).
  revert H1. generalize (match l with Some l => qmax x l | None => x end). intros z Hz. destruct u as [u|]; [|exact Hz]. cbn in Hu. unfold qmin. destruct (qle_spec z u); lra.
Qed.
Lemma calc_pos c d x : sound_limits c -> 0 <= x -> 0 <= calc_exp c d x.
Proof.
  intros Hc Hx. destruct c as [|l u|l u]; cbn [calc_exp sound_limits] in *; [exact Hx|apply cap_pos; assumption|]. apply cap_pos; [|exact Hx]. destruct u as [u|]; cbn in *; [|exact I]. apply Qmult_le_0_compat; [exact Hc|]. unfold qofnat. change 0 with (inject_Z 0). rewrite <- Zle_Qle. lia.
Qed.
Lemma tau_weight m m' d (r : rule L) : reweighted m m' -> 0 < mweight m -> measured r -> alike_res (tau_rel (mweight m' / mweight m)) (tau L m d r) (tau L m' d r).
Proof.
  intros [H1 H2 H3 [_ _]] H4 HR. unfold tau, get_att. destruct (att r) as [t|] eqn:EA; cbn [of_option rbind]; [|reflexivity]. destruct (HR t EA) as [HX HE]. rewrite H2.
  pose proof (calc_pos (mexp m) d (experience t) H3 HX) as HP. set (z := calc_exp (mexp m) d (experience t)) in *.
  assert (HZ : 0 <= z * mweight m) by (apply Qmult_le_0_compat; lra).
  destruct HE as [E|(e & E & He)]; rewrite E; cbn [rbind alike_res].
  - split; [field; lra|lra].
  - destruct (qeq_spec e 0) as [F|F]; [exfalso; lra|]. cbn [rbind alike_res]. split; [field; split; lra|]. apply Qmult_le_0_compat; [|exact HZ]. apply Qle_shift_div_l; lra.
Qed.
Lemma mix_positive m m' X rs cache : reweighted m m' -> 0 < mweight m -> Forall measured rs -> alike_res (Forall2 Qeq) (mix L m X rs cache) (mix L m' X rs cache).
Proof.
  intros HM Hp HR. assert (Hc : ~ mweight m' / mweight m == 0). { destruct HM as [_ _ _ [H4 H5]]. intros E. apply H5. assert (E2 : mweight m' == mweight m' / mweight m * mweight m) by (field; exact H4). rewrite E2, E. ring. }
  assert (HF : Forall2 rr rs rs) by (clear -HR; induction HR; constructor; auto; split; auto).
  pose proof (mix_core _ Hc L m m' X rs rs cache 1) as H. rewrite !rep_one in H.
  assert (H' : alike_res (fun p p' => Forall2 Qeq (repeated 1 p) p') (mix L m X rs cache) (mix L m' X rs cache)).
  { apply H.
    - apply (alike_rmap rr _ _ _ _ _ (fun r r' HH => match HH with conj E _ => eq_ind_r (fun z => alike_res _ (local_pred L X cache r) (local_pred L X cache z)) (local_form X cache r) E end) HF).
    - apply (alike_rmap rr); [|exact HF]. intros r r' [-> Hr]. apply tau_weight; assumption. }
  destruct (mix L m X rs cache), (mix L m' X rs cache); cbn [alike_res] in *; try contradiction; [|exact H']. rewrite rep_one in H'. exact H'.
Qed.
Lemma Qeq_between a b c : Forall2 Qeq a b -> Forall2 Qeq a c -> Forall2 Qeq b c.
Proof. intros H. revert c. induction H as [|x y a b Hx H IH]; intros c HC; inversion HC as [|x0 z a0 c0 Hz HC0]; subst; constructor; auto. rewrite <- Hx. exact Hz. Qed.
Lemma mix_weight m m' X rs cache : reweighted m m' -> Forall measured rs -> alike_res (Forall2 Qeq) (mix L m X rs cache) (mix L m' X rs cache).
Proof.
  intros [H1 H2 H3 [H4 H5]] HR. assert (A : forall w, ~ mweight w == 0 -> mfilter w = mfilter m -> mexp w = mexp m -> alike_res (Forall2 Qeq) (mix L (reweigh 1 m) X rs cache) (mix L w X rs cache)).
  { intros w Hw F1 F2. apply mix_positive; [constructor; cbn; auto; split; [discriminate|exact Hw]|reflexivity|exact HR]. }
  pose proof (A m H4 eq_refl eq_refl) as B1. pose proof (A m' H5 H1 H2) as B2. destruct (mix L (reweigh 1 m) X rs cache), (mix L m X rs cache), (mix L m' X rs cache); cbn [alike_res] in *; try contradiction; [eapply Qeq_between; eauto|congruence].
Qed.
Lemma sub_members bits (pool rs : list (rule L)) : Forall measured pool -> subpopulation L bits pool = Ok rs -> Forall measured rs.
Proof.
  intros HP. unfold subpopulation. destruct (Nat.eqb _ _); cbn; [|discriminate]. intros H. injection H as <-. clear -HP. revert bits. induction HP as [|r pool Hr HP IH]; intros [|[] bits]; cbn; auto.
Qed.
Lemma predict_weight m m' bits pool X cache : reweighted m m' -> Forall measured pool -> alike (Forall2 Qeq) (sol_predict L m bits pool X cache) (sol_predict L m' bits pool X cache).
Proof.
  intros HM HP g. unfold sol_predict. destruct (subpopulation L bits pool) as [rs|e] eqn:ES; [|auto]. pose proof (sub_members _ _ _ HP ES) as HR. unfold mixing_call. rewrite (rw_filter _ _ HM). destruct rs as [|r rs]; [split; [reflexivity|apply Forall2_Qeq_refl]|].
  destruct (apply_filter L (mfilter m) (r :: rs) g) as [[out|e] g'] eqn:EF; [|auto]. assert (HO : Forall measured out) by (apply Forall_forall; intros z Hz; rewrite Forall_forall in HR; apply HR; exact (filter_incl L _ _ _ _ _ EF z Hz)).
  pose proof (mix_weight m m' X out cache HM HO) as H. destruct (mix L m X out cache), (mix L m' X out cache); cbn [alike_res] in H; try contradiction; auto.
Qed.
Lemma mse_same y p p' : Forall2 Qeq p p' -> mse y p == mse y p'.
Proof. intros H. unfold mse. rewrite (qsum_same _ (map2 (fun a b => (a - b) * (a - b)) y p')); [reflexivity|]. apply map2_same; [intros a b c d -> ->; reflexivity|apply Forall2_Qeq_refl|exact H]. Qed.
Lemma measure_weight m m' f bits pool X y : reweighted m m' -> by_value f -> Forall measured pool -> alike same_measures (sol_fit L m f bits pool X y) (sol_fit L m' f bits pool X y).
Proof.
  intros HM Hf HP g. unfold sol_fit. pose proof (predict_weight m m' bits pool X true HM HP g) as H. destruct (sol_predict L m bits pool X true g) as [[v|e] g1], (sol_predict L m' bits pool X true g) as [[v'|e'] g2]; try contradiction; destruct H as [-> H]; [|auto].
  rewrite <- (L_List.Forall2_len _ _ _ H). destruct (_ || _)%bool; [auto|]. split; [reflexivity|]. assert (HE : floor_error (mse y v) == floor_error (mse y v')) by (apply floor_same, mse_same; exact H). constructor; cbn; auto. symmetry. exact HE.
Qed.
(* ----- draws with equal probabilities ----- *)
Lemma cdf_same w w' : Forall2 Qeq w w' -> forall acc acc' u i, acc == acc' -> search_cdf w acc u i = search_cdf w' acc' u i.
Proof.
  induction 1 as [|p p' w w' Hp HW IH]; intros acc acc' u i Ha; cbn [search_cdf]; [reflexivity|]. assert (E : acc + p == acc' + p') by (rewrite Ha, Hp; reflexivity). rewrite (qlt_same u u _ _ (Qeq_refl u) E). destruct (qlt u (acc' + p')); [reflexivity|]. apply IH. exact E.
Qed.
Lemma choices_p_same {A} (l : list A) n w w' : Forall2 Qeq w w' -> alike eq (choices_p l n w) (choices_p l n w').
Proof.
  intros H g. unfold choices_p. rewrite <- (L_List.Forall2_len _ _ _ H). assert (E : weights_ok w' = weights_ok w).
  { unfold weights_ok. rewrite (qeq_same (qsum w') (qsum w) 1 1) by (reflexivity || (symmetry; apply qsum_same; exact H)). f_equal. clear -H. induction H as [|a b w w' H1 H2 IH]; cbn; [reflexivity|]. rewrite IH, (qle_same 0 0 b a) by (reflexivity || (symmetry; exact H1)). reflexivity. }
  rewrite E. destruct (_ || _)%bool; [auto|]. destruct l as [|x l]; [auto|]. destruct (draws n g) as [qs g']. split; [reflexivity|]. apply map_ext. intros q. rewrite (cdf_same w w' H 0 0 (u01 q) 0 (Qeq_refl 0)). reflexivity.
Qed.
Lemma probabilities_same ws ws' : Forall2 Qeq ws ws' -> paired (Forall2 Qeq) (probabilities ws) (probabilities ws').
Proof.
  intros H. unfold probabilities. pose proof (qsum_same _ _ H) as ES. rewrite (qeq_same (qsum ws') (qsum ws) 0 0) by (reflexivity || (symmetry; exact ES)). destruct (qeq (qsum ws) 0); cbn; [exact I|].
  revert ES. generalize (qsum ws) (qsum ws'). intros s s' ES. induction H; cbn; constructor; auto. rewrite H, ES. reflexivity.
Qed.
(* ----- discovery ----- *)
Lemma fitted_measured m X y (r : rule L) : fitted m X y = Ok r -> measured r.
Proof.
  unfold fitted, rule_fit, fresh_rule. cbn [cond rmodel att]. destruct (match_call m X) as [ms|e]; [|discriminate]. destruct (existsb _ ms); cbn [negb].
  - destruct (Nat.eqb _ _); [|discriminate]. unfold trained. intros H. injection H as <-. intros t Ht. injection Ht as <-. cbn. split; [unfold qofnat; change 0 with (inject_Z 0); rewrite <- Zle_Qle; lia|]. right. eexists. split; [reflexivity|apply floor_pos].
  - intros H. injection H as <-. intros t Ht. injection Ht as <-. cbn. split; [lra|auto].
Qed.
Lemma fitted_same m X y : alike_res rr (fitted m X y) (fitted m X y).
Proof. destruct (fitted m X y) as [r|e] eqn:E; cbn; [split; [reflexivity|eapply fitted_measured; exact E]|reflexivity]. Qed.
Lemma all_measured (rs rs' : list (rule L)) : Forall2 rr rs rs' -> rs' = rs /\ Forall measured rs.
Proof. induction 1 as [|r r' rs rs' [-> H1] H2 [-> IH]]; split; auto. Qed.
Lemma measured_all (rs : list (rule L)) : Forall measured rs -> Forall2 rr rs rs.
Proof. induction 1; constructor; auto. split; auto. Qed.
Lemma pick_same s (rs : list (rule L)) n : Forall measured rs -> alike (Forall2 rr) (pick_rules s rs n) (pick_rules s rs n).
Proof.
  intros H g. destruct (pick_rules s rs n g) as [[out|e] g'] eqn:E; [|auto]. split; [reflexivity|]. apply measured_all. apply pick_in in E as [E _]. rewrite Forall_forall in *. intros r Hr. apply H, E. exact Hr.
Qed.
Lemma first_same (w : list (rule L)) : Forall measured w -> alike_res rr (first_of w) (first_of w).
Proof. intros [|r l Hr _]; [reflexivity|split; [reflexivity|exact Hr]]. Qed.
Lemma push_measured n w (r : rule L) : Forall measured w -> measured r -> Forall measured (push n w r).
Proof. intros HW Hr. unfold push. apply Forall_forall. intros z Hz. apply In_skipn in Hz. apply in_app_or in Hz. rewrite Forall_forall in HW. destruct Hz as [Hz|[<-|[]]]; auto. Qed.
Lemma invalid_same ac y (rs : list (rule L)) : Forall measured rs -> alike_res (Forall2 rr) (filter_invalid ac y rs) (filter_invalid ac y rs).
Proof.
  induction 1 as [|r rs H HR IH]; cbn [filter_invalid]; [constructor|]. destruct (accept ac r y) as [ok|e]; cbn [rbind]; [|reflexivity]. destruct (filter_invalid ac y rs); cbn in *; [|reflexivity]. destruct ok; [constructor; [split; auto|exact IH]|exact IH].
Qed.
Section Problem.
Variables D D' : denv L.
Hypothesis HD : reweighted_problem D D'.
Lemma squared_weight use : alike (Forall2 Qeq) (squared_weights D use) (squared_weights D' use).
Proof.
  destruct HD as [[H1 H2] [H3 H4] H5 H6]. unfold squared_weights. rewrite H5, H1, H2, H3. destruct (delite D) as [bits|]; [|apply alike_raise]. specialize (H6 ltac:(discriminate)).
  eapply alike_bind; [apply (predict_weight _ _ _ _ _ false H6 H4)|]. intros p p' HP. rewrite <- (L_List.Forall2_len _ _ _ HP). destruct (Nat.eqb _ _); [|apply alike_raise]. apply alike_ret. apply map2_same; [intros a b c d -> ->; reflexivity|exact HP|apply Forall2_Qeq_refl].
Qed.
Lemma wheel_weight use (w w' : list (rule L) -> St rng (list Q)) n : (forall rs, alike (Forall2 Qeq) (w rs) (w' rs)) -> alike eq (wheel D use w n) (wheel D' use w' n).
Proof.
  intros HW. destruct HD as [[H1 H2] [H3 H4] H5 H6]. unfold wheel, subgroup. rewrite H5, H1, H3. eapply alike_bind with (R := eq); [apply alike_same|]. intros rs rs' <-. eapply alike_bind with (R := paired (Forall2 Qeq)).
  - destruct rs as [|r rs]; [apply alike_ret; exact I|]. eapply alike_bind; [apply HW|]. intros p p' HP. apply alike_ret, probabilities_same. exact HP.
  - intros p p' HP. destruct p, p'; cbn in HP; try contradiction; [apply choices_p_same; exact HP|apply alike_same].
Qed.
Lemma origins_weight o n : alike eq (origins o D n) (origins o D' n).
Proof.
  destruct o as [| |use|use]; cbn [origins]; [rewrite (proj1 (rwp_data _ _ HD)); apply alike_same|rewrite (proj1 (rwp_data _ _ HD)); apply alike_same| |].
  - apply wheel_weight. intros rs. apply alike_lift. destruct (matching_weights rs); cbn; [apply Forall2_Qeq_refl|reflexivity].
  - apply wheel_weight. intros rs. apply squared_weight.
Qed.
Lemma new_weight c x : alike rr (new_rule c D x) (new_rule c D' x).
Proof. unfold new_rule. rewrite (proj1 (rwp_data _ _ HD)), (proj2 (rwp_data _ _ HD)). eapply alike_bind; [apply alike_same|]. intros m m' <-. apply alike_lift, fitted_same. Qed.
Lemma mutant_weight c mu r : alike rr (mutant c mu D r) (mutant c mu D' r).
Proof. unfold mutant. rewrite (proj1 (rwp_data _ _ HD)), (proj2 (rwp_data _ _ HD)). eapply alike_bind; [apply alike_same|]. intros m m' <-. apply alike_lift, fitted_same. Qed.
Lemma es_loop_weight c n : forall e w, measured e -> Forall measured w -> alike rr (es_loop c D n e w) (es_loop c D' n e w).
Proof.
  induction n as [|n IH]; intros e w He HW; cbn [es_loop]; [apply alike_ret; split; auto|]. cbv zeta.
  pose proof (push_measured (es_delay c) w e HW He) as HP. eapply alike_bind; [apply alike_repeat; apply (mutant_weight (es_d c) (es_mut c) e)|]. intros k k' HK. apply all_measured in HK. destruct HK as [-> HK].
  assert (HV : Forall measured (filter is_valid k)) by (apply Forall_forall; intros r Hr; apply filter_In in Hr; rewrite Forall_forall in HK; apply HK, Hr).
  destruct (filter is_valid k) as [|v V]; [apply IH; assumption|].
  eapply alike_bind with (R := rr).
  - destruct (es_operator c); [| | |apply alike_ret; split; auto]; (eapply alike_bind; [apply pick_same; try apply Forall_app; auto|]); intros s s' Hs; apply all_measured in Hs; destruct Hs as [-> Hs]; apply alike_lift, first_same; exact Hs.
  - intros f f' [-> Hf]. destruct (es_operator c); try (apply IH; assumption). destruct (settled _ _); [apply alike_lift, first_same; exact HP|apply IH; assumption].
Qed.
Lemma news_weight c xs : alike (Forall2 rr) (mmap (new_rule c D) xs) (mmap (new_rule c D') xs).
Proof. apply (alike_mmap eq rr); [intros x x' <-; apply new_weight|apply Forall2_eq]. Qed.
Lemma es_weight c n kids : alike (Forall2 rr) (es_optimize c D n kids) (es_optimize c D' n kids).
Proof.
  unfold es_optimize. rewrite (proj2 (rwp_data _ _ HD)). eapply alike_bind; [apply origins_weight|]. intros xs xs' <-. eapply alike_bind; [apply news_weight|]. intros i i' Hi.
  eapply alike_bind with (R := Forall2 rr); [apply alike_lift|intros rs rs' HR; apply all_measured in HR; destruct HR as [-> HR]; apply alike_lift, invalid_same; exact HR].
  apply (alike_rmap (fun t t' => rr (fst t) (fst t') /\ snd t = snd t')).
  - intros t t' [[Ht Hm] Hg]. unfold es_task. rewrite Hg, Ht. pose proof (es_loop_weight c (es_iter c) (fst t) [] Hm (Forall_nil _) (snd t')) as H. destruct (es_loop c D _ _ _ _) as [[o|e] g1], (es_loop c D' _ _ _ _) as [[o'|e'] g2]; try contradiction; apply H.
  - generalize (map kids (seq 0 n)). induction Hi as [|r r' i i' Hr Hi IH]; intros [|k ks]; cbn; constructor; auto.
Qed.
Lemma rs_weight c n : alike (Forall2 rr) (rs_optimize c D n) (rs_optimize c D' n).
Proof.
  unfold rs_optimize. rewrite (proj2 (rwp_data _ _ HD)). eapply alike_bind with (R := Forall2 (Forall2 rr)).
  - apply alike_repeat. unfold rs_one. eapply alike_bind; [apply origins_weight|]. intros xs xs' <-. eapply alike_bind; [apply news_weight|]. intros i i' Hi. apply all_measured in Hi. destruct Hi as [-> Hi]. apply pick_same. exact Hi.
  - intros o o' HO. assert (HC : Forall2 rr (concat o) (concat o')) by (induction HO as [|l l' o o' Hl HO IH]; cbn; [constructor|]; apply Forall2_app; assumption). apply all_measured in HC. destruct HC as [-> HC]. apply alike_lift, invalid_same. exact HC.
Qed.
End Problem.
End Weight.
