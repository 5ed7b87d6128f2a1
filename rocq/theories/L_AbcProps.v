(* The bee colony: the greedy update over phases, iterations and runs (C30). *)
From Coq Require Import Lia Permutation.
From Verif Require Import PyNum PyList PyMon PyRng PyStat L_Num L_List L_Rng M_Matching M_Rule L_RuleProps M_Mixing L_Mixing M_Solution S_Solution
  L_Heap L_HeapProps M_Composition S_Composition L_Safe L_SafeFit L_Composition M_GenomeOps S_GenomeOps L_GenomeOps L_GenomeProps L_SasProps L_SagaProps
  L_Held M_Abc S_Abc L_Abc.

Lemma fitness_inv {K} (s : hst K) r f s' : wf s -> fitness r s = (Ok f, s') -> s' = s /\ has_fit s r f.
Proof.
  intros W H. destruct (nth_error (sols s) r) as [o|] eqn:Ho.
  - assert (HL : live s r) by (unfold live; apply nth_error_Some; congruence). destruct (live_vw s r W HL) as (bits & a & x & HV).
    rewrite (fitness_eq _ _ _ _ _ HV) in H. destruct a as [a|]; cbn in H; [|discriminate]. inversion H; subst. split; auto.
    exists bits, a. split; auto. apply shows_vw; eauto.
  - unfold fitness, get_satt, get_sol in H. unfold bind in H. rewrite Ho in H. discriminate.
Qed.
Lemma greedy_spec news : forall fs s fs' s', wf s -> greedy_update news fs s = (Ok fs', s') ->
  s' = s /\ length fs' = length fs /\
  forall i f, nth_error fs i = Some f -> exists f', nth_error fs' i = Some f' /\
    match nth_error news i with Some r => greedy s r f f' | None => f' = f end.
Proof.
  induction news as [|r news IH]; intros fs s fs' s' W H.
  - cbn in H. inversion H; subst. split; auto. split; auto. intros i f Hf. exists f. split; auto. destruct i; reflexivity.
  - destruct fs as [|f fs]; cbn [greedy_update] in H.
    { inversion H; subst. split; auto. split; auto. intros [|i] f Hf; discriminate. }
    apply bind_inv in H as (fn & s1 & H1 & H). apply fitness_inv in H1 as [-> Hfn]; auto.
    apply bind_inv in H as (fo & s1 & H1 & H). apply fitness_inv in H1 as [-> Hfo]; auto. cbv zeta in H.
    apply bind_inv in H as (rest & s1 & H1 & H). destruct (IH _ _ _ _ W H1) as (-> & HL & Hi). inversion H; subst.
    split; auto. split; [simpl; lia|]. intros [|i] f0 Hf0; cbn in *.
    + inversion Hf0; subst. eexists. split; [reflexivity|]. exists fn, fo. split; auto. split; auto. split; intros ->; reflexivity.
    + apply Hi; auto.
Qed.

Section Props.
Context {L : learner}.
Variable E : env L.
Implicit Types s : hst plain.

Lemma live_inv s : wf s -> inv (live s) s. Proof. intros W; split; auto. Qed.
Lemma honest_held s r : honest E s r -> held E (live s) s r.
Proof.
  intros (bits & a & g & g' & HS & HL & _). apply shows_vw in HS as (x & HS). right. split; [eapply vw_live; eauto|]. exists bits, (Some a), x. auto.
Qed.
Lemma grow_more h s s' : grow E (live s) h s s' -> more s s'.
Proof. intros (I & HL & HA & _). split; [apply I|]. split; auto. Qed.
Lemma honest_more s s' r : more s s' -> honest E s r -> honest E s' r.
Proof. intros M (b & a & g & g' & HS & H). exists b, a, g, g'. split; auto. eapply more_shows; eauto. Qed.
Lemma honests_more s s' rs : more s s' -> Forall (honest E s) rs -> Forall (honest E s') rs.
Proof. intros M. apply Forall_impl. intros r. apply honest_more; auto. Qed.
Lemma has_fit_more s s' r f : more s s' -> has_fit s r f -> has_fit s' r f.
Proof. intros M (b & a & HS & ->). exists b, a. split; auto. eapply more_shows; eauto. Qed.
Lemma more_untouched s s' : more s s' -> untouched s s'.
Proof. intros M r b a. apply more_shows; auto. Qed.

(* one visit *)
Lemma visit_spec M f own other s r s' : wf s -> honest E s own -> honest E s other ->
  (let* n := food_call M f own other in fit E n) s = (Ok r, s') -> more s s' /\ honest E s' r /\ bred f s s' own other r.
Proof.
  intros W Ho Ht H. apply bind_inv in H as (r1 & s1 & H1 & H).
  pose proof (safe_food_call E (live s) true M f own other s (live_inv s W) (honest_held _ _ Ho) (honest_held _ _ Ht)) as HS.
  unfold safe in HS. rewrite H1 in HS. destruct HS as [G (Hg & Hl & bo & ao & bt & at' & b & S1 & S2 & S3 & HN)].
  pose proof (grow_more _ _ _ G) as M1. apply shows_vw in S3 as (x & HV). pose proof (fit_eq E s1 r1 b None x (more_wf _ _ M1) HV) as HF.
  destruct (sol_fit L (emix E) (efit E) b (epool E) (eX E) (ey E) (hrng s1)) as [[a|e] g'] eqn:EF; [|congruence].
  destruct HF as (s2 & HF & W2 & HLen & _ & HV2). rewrite H in HF. injection HF as -> ->.
  assert (M2 : more s s2).
  { split; auto. pose proof (proj1 (proj2 M1)) as HL1. split; [lia|]. intros q Hq. rewrite HV2. destruct (Nat.eqb_spec q r1); [subst; contradiction|].
    apply M1; auto. }
  assert (HS2 : shows s2 r1 b (Some a)) by (apply shows_vw; exists x; rewrite HV2, Nat.eqb_refl; auto).
  assert (HLb : length b = length (epool E)). { destruct Hg as (_ & b' & a' & x' & Hv & Hl'). rewrite HV in Hv. injection Hv as <- <- <-. auto. }
  split; auto. split; [exists b, a, (hrng s1), g'; auto|]. split; auto. exists bo, ao, bt, at', b, a. auto.
Qed.
Lemma bred_back f s0 s s' a b r : more s0 s -> live s0 a -> live s0 b -> bred f s s' a b r -> bred f s0 s' a b r.
Proof.
  intros M La Lb (Hl & bo & ao & bt & at' & bb & aa & H1 & H2 & H3 & H4). split.
  { intros H. apply Hl. eapply more_live; eauto. }
  exists bo, ao, bt, at', bb, aa. split; [|split; auto].
  - apply shows_vw in H1 as (x & H1). apply shows_vw. exists x. rewrite (proj2 (proj2 M)) in H1; auto.
  - apply shows_vw in H2 as (x & H2). apply shows_vw. exists x. rewrite (proj2 (proj2 M)) in H2; auto.
Qed.
Lemma bred_on f s s' s'' a b r : more s' s'' -> bred f s s' a b r -> bred f s s'' a b r.
Proof.
  intros M (Hl & bo & ao & bt & at' & bb & aa & H1 & H2 & H3 & H4). split; auto. exists bo, ao, bt, at', bb, aa. split; auto. split; auto. split; auto.
  eapply more_shows; eauto.
Qed.
Lemma honest_live s r : honest E s r -> live s r.
Proof. intros (b & a & g & g' & HS & _). apply shows_vw in HS as (x & HS). eapply vw_live; eauto. Qed.
Lemma visits_spec M f ps : forall s0 s rs s', more s0 s -> wf s0 -> Forall (fun p => honest E s0 (src (fst p)) /\ honest E s0 (snd p)) ps ->
  mmap (fun p : source * nat => let* n := food_call M f (src (fst p)) (snd p) in fit E n) ps s = (Ok rs, s') ->
  more s s' /\ Forall2 (fun p r => honest E s' r /\ bred f s0 s' (src (fst p)) (snd p) r) ps rs.
Proof.
  induction ps as [|p ps IH]; intros s0 s rs s' M0 W HP H; cbn [mmap] in H.
  - inversion H; subst. split; [apply more_refl; apply (more_wf _ _ M0)|constructor].
  - inversion HP as [|? ? [Hp1 Hp2] HP2]; subst. apply bind_inv in H as (r & s1 & H1 & H).
    destruct (visit_spec M f (src (fst p)) (snd p) s r s1 (more_wf _ _ M0) (honest_more _ _ _ M0 Hp1) (honest_more _ _ _ M0 Hp2) H1) as (M1 & Hh & Hb).
    apply bind_inv in H as (rs1 & s2 & H2 & H). injection H as <- <-.
    destruct (IH s0 s1 rs1 s2 (more_trans _ _ _ M0 M1) W HP2 H2) as [M2 HF]. split; [eapply more_trans; eauto|]. constructor; auto.
    split; [eapply honest_more; eauto|]. eapply bred_on; [exact M2|]. apply (bred_back f s0 s); auto; eapply honest_live; eauto.
Qed.

(* one phase: every source with a partner meets one new, measured neighbour *)
Lemma phase_spec M c fs others s fs' s' : wf s -> Forall (honest E s) (map src fs) -> Forall (honest E s) others ->
  bee_phase M c E fs others s = (Ok fs', s') ->
  more s s' /\ Forall (honest E s') (map src fs') /\ length fs' = length fs /\
  forall i f, nth_error fs i = Some f -> exists f', nth_error fs' i = Some f' /\
    match nth_error others i with
    | None => f' = f
    | Some o => exists r, bred (be_food c) s s' (src f) o r /\ honest E s' r /\ greedy s' r f f'
    end.
Proof.
  intros W HF HO H. unfold bee_phase in H. apply bind_inv in H as (news & s1 & H1 & H).
  pose proof HF as HF0. rewrite Forall_map in HF0. rewrite Forall_forall in HF0, HO.
  apply (visits_spec M (be_food c) _ s s news s1) in H1 as [HM HN]; [|apply more_refl; auto|auto|].
  2: { apply Forall_forall. intros [f o] Hp. cbn [fst snd]. split; [apply HF0; eapply in_combine_l; eauto|apply HO; eapply in_combine_r; eauto]. }
  apply greedy_spec in H as (-> & HL & Hi); [|apply (more_wf _ _ HM)]. split; auto.
  assert (HV : forall i f, nth_error fs i = Some f -> exists f', nth_error fs' i = Some f' /\
    match nth_error others i with None => f' = f | Some o => exists r, bred (be_food c) s s1 (src f) o r /\ honest E s1 r /\ greedy s1 r f f' end).
  { intros i f Hf. destruct (Hi i f Hf) as (f' & Hf' & Hv). exists f'. split; auto. destruct (nth_error others i) as [o|] eqn:Eo.
    - pose proof (combine_nth2 _ _ _ _ _ Hf Eo) as Hc. destruct (nth_error news i) as [r|] eqn:Er.
      + destruct (Forall2_nth2 _ _ _ _ _ HN Er) as (p & Hp & H1 & H2). rewrite Hc in Hp. injection Hp as <-. exists r. auto.
      + exfalso. apply nth_error_None in Er. rewrite <- (Forall2_length _ _ _ HN) in Er. apply nth_error_None in Er. congruence.
    - destruct (nth_error news i) as [r|] eqn:Er; auto. exfalso. destruct (Forall2_nth2 _ _ _ _ _ HN Er) as (p & Hp & _). destruct p as [u v].
      apply combine_nth_error in Hp as [_ Hp]. congruence. }
  split; [|split; auto]. apply Forall_map. apply all_nth. intros i f' Hf'. destruct (nth_len fs fs' i f') as (f & Hf); auto.
  destruct (HV i f Hf) as (f2 & Hf2 & Hv). assert (f2 = f') by congruence. subst f2.
  assert (Hof : honest E s1 (src f)) by (apply (honest_more s); auto; apply HF0; eapply nth_error_In; eauto).
  destruct (nth_error others i) as [o|]; [|subst; auto]. destruct Hv as (r & _ & Hh & fn & fo & _ & _ & H1 & H2).
  destruct (nlt fo fn); [rewrite H1 by auto|rewrite H2 by auto]; auto.
Qed.
Lemma scouts_spec c ini fs s fs' s' : wf s -> Forall (honest E s) (map src fs) -> mmap (scout c E ini) fs s = (Ok fs', s') ->
  more s s' /\ Forall (honest E s') (map src fs') /\ length fs' = length fs /\
  forall i f, nth_error fs i = Some f -> exists f', nth_error fs' i = Some f' /\
    ((trials f < be_limit c)%nat /\ f' = f \/ (be_limit c <= trials f)%nat /\ trials f' = 0%nat /\ ~ live s (src f')).
Proof.
  intros W HF HE. pose proof (safe_scouts E (live s) c ini fs s (live_inv s W)) as H. unfold safe in H. rewrite HE in H.
  destruct H as [G [HL HV]]. pose proof (grow_more _ _ _ G) as HM. split; auto. split; [|split; auto].
  - apply Forall_map. apply all_nth. intros i f' Hf'. destruct (nth_len fs fs' i f') as (f & Hf); auto.
    destruct (HV i f Hf) as (f2 & Hf2 & Hv). assert (f2 = f') by congruence. subst f2.
    destruct Hv as [[-> _]|(_ & _ & _ & _ & Hh)]; auto.
    apply (honest_more s); auto. rewrite Forall_map in HF. rewrite Forall_forall in HF. apply HF. eapply nth_error_In; eauto.
  - intros i f Hf. destruct (HV i f Hf) as (f' & Hf' & Hv). exists f'. split; auto.
    destruct Hv as [[-> H]|(H1 & H2 & H3 & _)]; auto.
Qed.

Lemma steady_refl s f : never_nan E -> honest E s (src f) -> steady 0 s s f f.
Proof. intros HN H. destruct (honest_fits E s _ HN H) as (v & Hv & Hn). split; [|lia]. exists v, v. split; auto. split; auto. apply nle_refl; auto. Qed.
Lemma not_worse_trans s1 s2 s3 a b d : not_worse s1 a s2 b -> not_worse s2 b s3 d -> not_worse s1 a s3 d.
Proof.
  intros (v & w & Hv & Hw & H1) (w' & x & Hw' & Hx & H2). rewrite (has_fit_fun _ _ _ _ Hw' Hw) in H2. exists v, x.
  split; auto. split; auto. eapply nle_trans; eauto.
Qed.
Lemma steady_trans j k s1 s2 s3 a b d : steady j s1 s2 a b -> steady k s2 s3 b d -> steady (j + k) s1 s3 a d.
Proof. intros [H1 H2] [H3 H4]. split; [eapply not_worse_trans; eauto|lia]. Qed.
Lemma steady_more s s' f : never_nan E -> more s s' -> honest E s (src f) -> steady 0 s s' f f.
Proof.
  intros HN HM H. destruct (honest_fits E s _ HN H) as (v & Hv & Hn). split; [|lia]. exists v, v. split; auto.
  split; [eapply has_fit_more; eauto|]. apply nle_refl; auto.
Qed.
Lemma greedy_steady s s' r f f' : never_nan E -> more s s' -> honest E s (src f) -> greedy s' r f f' -> steady 1 s s' f f'.
Proof.
  intros HN HM H (fn & fo & Hn & Ho & H1 & H2). destruct (honest_fits E s _ HN H) as (v & Hv & Hnn).
  pose proof (has_fit_more _ _ _ _ HM Hv) as Hv'. rewrite (has_fit_fun _ _ _ _ Ho Hv') in *. destruct (nlt v fn) eqn:EL.
  - rewrite H1 by auto. split; [|cbn; lia]. exists v, fn. cbn [src]. split; auto. split; auto. apply nlt_nle; auto.
  - rewrite H2 by auto. split; [|cbn; lia]. exists v, v. cbn [src]. split; auto. split; auto. apply nle_refl; auto.
Qed.
Lemma phase_steady M c fs others s fs' s' : never_nan E -> wf s -> Forall (honest E s) (map src fs) -> Forall (honest E s) others ->
  bee_phase M c E fs others s = (Ok fs', s') ->
  forall i f, nth_error fs i = Some f -> exists f', nth_error fs' i = Some f' /\ steady 1 s s' f f'.
Proof.
  intros HN W HF HO HE i f Hf. destruct (phase_spec M c fs others s fs' s' W HF HO HE) as (HM & _ & _ & HV).
  assert (Hh : honest E s (src f)). { rewrite Forall_map in HF. rewrite Forall_forall in HF. apply HF. eapply nth_error_In; eauto. }
  destruct (HV i f Hf) as (f' & Hf' & Hv). exists f'. split; auto. destruct (nth_error others i) as [o|]; [destruct Hv as (r & _ & _ & HG)|subst f'].
  - eapply greedy_steady; eauto.
  - destruct (steady_more s s' f HN HM Hh). split; auto. lia.
Qed.

(* one iteration *)
Lemma choices_sub {T} (l : list T) k (s : hst plain) r s' : rnd (choices l k) s = (Ok r, s') -> Forall (fun x => In x l) r /\ exists g, s' = with_r s g.
Proof.
  rewrite rnd_eq. intros H. injection H as H1 <-. split; [|eauto]. destruct (choices l k (hrng s)) eqn:EC. cbn in H1. subst.
  apply choices_ok in EC. apply EC.
Qed.
Lemma choices_num_sub {T} (l : list T) k w (s : hst plain) r s' : rnd (choices_num l k w) s = (Ok r, s') -> Forall (fun x => In x l) r /\ exists g, s' = with_r s g.
Proof.
  rewrite rnd_eq. intros H. injection H as H1 <-. split; [|eauto]. unfold choices_num in H1. destruct (finites w) as [qs|]; [|discriminate].
  destruct (choices_p l k qs (hrng s)) eqn:EC. cbn in H1. subst. apply choices_p_ok in EC as (_ & _ & _ & _ & H2).
  revert H2. apply Forall_impl. intros x (i & p & Hi & _). eapply nth_error_In; eauto.
Qed.
Lemma honest_with_r s g r : honest E s r -> honest E (with_r s g) r.
Proof. intros H. exact H. Qed.
Lemma fitnesses_same rs : forall s ws s', wf s -> fitnesses rs s = (Ok ws, s') -> s' = s.
Proof.
  unfold fitnesses. induction rs as [|r rs IH]; intros s ws s' W H; cbn [mmap] in H; [inversion H; auto|].
  apply bind_inv in H as (f & s1 & H1 & H). apply fitness_inv in H1 as [-> _]; auto.
  apply bind_inv in H as (fs & s1 & H1 & H). apply IH in H1; auto. inversion H; subst; auto.
Qed.
Lemma subset_honest s (l rs : list nat) : Forall (honest E s) l -> Forall (fun x => In x l) rs -> Forall (honest E s) rs.
Proof. intros H. apply Forall_impl. intros r. rewrite Forall_forall in H. auto. Qed.
Lemma step_spec M c ini fs s fs' s' : never_nan E -> wf s -> Forall (honest E s) (map src fs) -> bee_step M c E ini fs s = (Ok fs', s') ->
  more s s' /\ Forall (honest E s') (map src fs') /\ length fs' = length fs /\
  forall i f, nth_error fs i = Some f -> exists f', nth_error fs' i = Some f' /\
    (steady 2 s s' f f' \/ (be_limit c <= trials f + 2)%nat /\ trials f' = 0%nat /\ ~ live s (src f')).
Proof.
  intros HN W HF H. unfold bee_step in H.
  apply bind_inv in H as (o1 & s1 & H1 & H). apply choices_sub in H1 as [HI1 (g1 & ->)].
  apply bind_inv in H as (fs1 & s2 & H1 & H).
  assert (W1 : wf (with_r s g1)) by exact W. assert (HF1 : Forall (honest E (with_r s g1)) (map src fs)) by exact HF.
  pose proof (subset_honest _ _ _ HF1 HI1) as HO1.
  destruct (phase_spec _ _ _ _ _ _ _ W1 HF1 HO1 H1) as (M1 & HF2 & HL1 & _).
  pose proof (phase_steady _ _ _ _ _ _ _ HN W1 HF1 HO1 H1) as HS1. pose proof (more_wf _ _ M1) as W2.
  apply bind_inv in H as (ws & s3 & H2 & H). apply fitnesses_same in H2; auto. subst s3. cbv zeta in H.
  apply bind_inv in H as (o2 & s3 & H2 & H). apply choices_num_sub in H2 as [HI2 (g2 & ->)].
  apply bind_inv in H as (fs2 & s3 & H2 & H).
  assert (W2' : wf (with_r s2 g2)) by exact W2. assert (HF2' : Forall (honest E (with_r s2 g2)) (map src fs1)) by exact HF2.
  pose proof (subset_honest _ _ _ HF2' HI2) as HO2.
  destruct (phase_spec _ _ _ _ _ _ _ W2' HF2' HO2 H2) as (M2 & HF3 & HL2 & _).
  pose proof (phase_steady _ _ _ _ _ _ _ HN W2' HF2' HO2 H2) as HS2. pose proof (more_wf _ _ M2) as W3.
  destruct (scouts_spec _ _ _ _ _ _ W3 HF3 H) as (M3 & HF4 & HL3 & HS3).
  split. { eapply more_trans; [|exact M3]. eapply more_trans; [exact M1|exact M2]. }
  split; auto. split; [lia|]. intros i f Hf.
  destruct (HS1 i f Hf) as (f1 & Hf1 & St1). destruct (HS2 i f1 Hf1) as (f2 & Hf2 & St2). destruct (HS3 i f2 Hf2) as (f3 & Hf3 & Hv).
  exists f3. split; auto. assert (St : steady 2 s s3 f f2) by (exact (steady_trans 1 1 _ _ _ _ _ _ St1 St2)).
  destruct Hv as [[_ ->]|(Ha & Hb & Hc)].
  - left. apply (steady_trans 2 0 _ _ _ _ _ _ St). apply steady_more; auto. rewrite Forall_map in HF3. rewrite Forall_forall in HF3. apply HF3.
    eapply nth_error_In; eauto.
  - right. destruct St as [_ St]. split; [lia|]. split; auto. intros Hl. apply Hc. unfold live in *.
    pose proof (proj1 (proj2 M1)). pose proof (proj1 (proj2 M2)). cbn in *. lia.
Qed.

(* a run in which no source can reach the limit *)
Lemma iterate_spec M c ini k : never_nan E -> forall fs s fs' s', wf s -> Forall (honest E s) (map src fs) ->
  Forall (fun f => trials f + 2 * k < be_limit c)%nat fs ->
  iterate k (bee_step M c E ini) fs s = (Ok fs', s') ->
  forall i f, nth_error fs i = Some f -> exists f', nth_error fs' i = Some f' /\ not_worse s (src f) s' (src f').
Proof.
  intros HN. induction k as [|k IH]; intros fs s fs' s' W HF HT H i f Hf; cbn [iterate] in H.
  - inversion H; subst. exists f. split; auto. apply (steady_refl s' f HN). rewrite Forall_map in HF. rewrite Forall_forall in HF. apply HF.
    eapply nth_error_In; eauto.
  - apply bind_inv in H as (fs1 & s1 & H1 & H). destruct (step_spec _ _ _ _ _ _ _ HN W HF H1) as (M1 & HF1 & HL1 & HS).
    assert (HS1 : forall i f, nth_error fs i = Some f -> exists f', nth_error fs1 i = Some f' /\ steady 2 s s1 f f').
    { intros j f0 Hf0. destruct (HS j f0 Hf0) as (f' & Hf' & [Hs|(Ha & _)]); [exists f'; auto|]. exfalso. rewrite Forall_forall in HT.
      specialize (HT f0 (nth_error_In _ _ Hf0)). lia. }
    destruct (HS1 i f Hf) as (f1 & Hf1 & Hn1 & _).
    destruct (IH fs1 s1 fs' s' (more_wf _ _ M1) HF1) with (i := i) (f := f1) as (f' & Hf' & Hn); auto.
    { apply all_nth. intros j f' Hf'. destruct (nth_len fs fs1 j f') as (f0 & Hf0); auto. destruct (HS1 j f0 Hf0) as (f2 & Hf2 & _ & Ht).
      assert (f2 = f') by congruence. subst f2. rewrite Forall_forall in HT. specialize (HT f0 (nth_error_In _ _ Hf0)). lia. }
    exists f'. split; auto. eapply not_worse_trans; eauto.
Qed.
Lemma run_never_worse M c ini pop s pop' s' : never_nan E -> wf s -> Forall (fun r => exists bits a, shows s r bits a /\ length bits = length (epool E)) pop ->
  (2 * be_iter c < be_limit c)%nat -> bee_run M c L E ini pop tt s = (Ok (pop', tt), s') ->
  exists s0, fit_all E pop s = (Ok pop, s0) /\
  forall i r, nth_error pop i = Some r -> exists r', nth_error pop' i = Some r' /\ not_worse s0 r s' r'.
Proof.
  intros HN W HP HT H. unfold bee_run in H. apply bind_inv in H as (p & s0 & H1 & H).
  assert (HG : Forall (good E nobody s) pop).
  { revert HP. apply Forall_impl. intros r (b & a & HS & HL). split; [intros []|]. apply shows_vw in HS as (x & HS). exists b, a, x. auto. }
  pose proof (safe_fit_all E nobody true s pop (inv_nobody s W) HG) as HS. unfold safe in HS. rewrite H1 in HS. destruct HS as [G (-> & _ & HH)].
  exists s0. split; auto. apply bind_inv in H as (fs & s1 & H2 & H). injection H as <- <-. intros i r Hr.
  assert (HF : Forall (honest E s0) (map src (map (fun r => mkSrc r 0) pop))) by (rewrite map_map; cbn; rewrite map_id; auto).
  pose proof (iterate_spec M c ini (be_iter c) HN _ _ fs s1 (proj1 (grow_inv _ _ _ _ _ G)) HF) as HI.
  destruct (HI) with (i := i) (f := mkSrc r 0) as (f' & Hf' & Hn); auto.
  - apply Forall_map. apply Forall_forall. intros x _. cbn [trials]. lia.
  - rewrite nth_error_map, Hr. reflexivity.
  - exists (src f'). split; auto. rewrite nth_error_map, Hf'. reflexivity.
Qed.

(* in the words of S_Abc *)
Lemma built_greedy news fs s fs' s' : wf s -> greedy_update news fs s = (Ok fs', s') ->
  s' = s /\ length fs' = length fs /\
  forall i f, nth_error fs i = Some f -> exists f', nth_error fs' i = Some f' /\
    match nth_error news i with Some r => greedy s r f f' | None => f' = f end.
Proof. intros B. apply greedy_spec, B. Qed.
Lemma built_phase M c fs others s fs' s' : wf s -> Forall (honest E s) (map src fs) -> Forall (honest E s) others ->
  bee_phase M c E fs others s = (Ok fs', s') ->
  untouched s s' /\ Forall (honest E s') (map src fs') /\ length fs' = length fs /\
  forall i f, nth_error fs i = Some f -> exists f', nth_error fs' i = Some f' /\
    match nth_error others i with
    | None => f' = f
    | Some o => exists r, bred (be_food c) s s' (src f) o r /\ honest E s' r /\ greedy s' r f f'
    end.
Proof.
  intros B HF HO H. destruct (phase_spec M c fs others s fs' s' B HF HO H) as (HM & H1 & H2 & H3). split; auto. apply more_untouched; auto.
Qed.
Lemma built_scouts c ini fs s fs' s' : wf s -> Forall (honest E s) (map src fs) -> mmap (scout c E ini) fs s = (Ok fs', s') ->
  untouched s s' /\ Forall (honest E s') (map src fs') /\ length fs' = length fs /\
  forall i f, nth_error fs i = Some f -> exists f', nth_error fs' i = Some f' /\
    ((trials f < be_limit c)%nat /\ f' = f \/ (be_limit c <= trials f)%nat /\ trials f' = 0%nat /\ ~ live s (src f')).
Proof.
  intros B HF H. destruct (scouts_spec c ini fs s fs' s' B HF H) as (HM & H1 & H2 & H3). split; auto. apply more_untouched; auto.
Qed.
Lemma built_step M c ini fs s fs' s' : never_nan E -> wf s -> Forall (honest E s) (map src fs) -> bee_step M c E ini fs s = (Ok fs', s') ->
  untouched s s' /\ Forall (honest E s') (map src fs') /\ length fs' = length fs /\
  forall i f, nth_error fs i = Some f -> exists f', nth_error fs' i = Some f' /\
    (steady 2 s s' f f' \/ (be_limit c <= trials f + 2)%nat /\ trials f' = 0%nat /\ ~ live s (src f')).
Proof.
  intros HN B HF H. destruct (step_spec M c ini fs s fs' s' HN B HF H) as (HM & H1 & H2 & H3). split; auto. apply more_untouched; auto.
Qed.
Lemma built_run M c ini pop s pop' s' : never_nan E -> built s ->
  Forall (fun r => exists bits a, shows s r bits a /\ length bits = length (epool E)) pop ->
  (2 * be_iter c < be_limit c)%nat -> bee_run M c L E ini pop tt s = (Ok (pop', tt), s') ->
  exists s0, fit_all E pop s = (Ok pop, s0) /\
  forall i r, nth_error pop i = Some r -> exists r', nth_error pop' i = Some r' /\ not_worse s0 r s' r'.
Proof. intros HN B. apply run_never_worse; auto. apply built_wf, B. Qed.
End Props.
