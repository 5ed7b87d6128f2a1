(* Ant colony: the statements of C29. *)
From Coq Require Import Lia Permutation.
From Verif Require Import PyNum PyList PyMon PyRng PyStat L_Num L_List L_Rng M_Matching M_Rule L_RuleProps M_Mixing L_Mixing M_Solution S_Solution
  L_Heap L_HeapProps L_MixingProps M_Composition S_Composition L_Safe L_SafeFit L_Composition L_History M_GenomeOps S_GenomeOps L_GenomeOps L_GenomeProps L_Held M_Aco S_Aco L_Aco.

Definition finite (x : num) : Prop := exists q, x = Fin q.
Lemma nclip_finite lo hi x : lo <= hi -> finite x -> in_range lo hi (nclip (Fin lo) (Fin hi) x).
Proof.
  intros H (q & ->). unfold nclip. cbn [nlt]. destruct (qlt_spec q lo); cbn [nlt].
  - destruct (qlt_spec hi lo); [lra|]. exists lo. split; auto. lra.
  - destruct (qlt_spec hi q); [exists hi|exists q]; split; auto; lra.
Qed.
Lemma nclip_any lo hi x : lo <= hi -> in_range_or_nan lo hi (nclip (Fin lo) (Fin hi) x).
Proof.
  intros H. destruct x as [q| | |].
  - right. apply nclip_finite; auto. exists q; auto.
  - right. unfold nclip. cbn. exists hi. split; auto. lra.
  - right. unfold nclip. cbn. destruct (qlt_spec hi lo); [lra|]. exists lo. split; auto. lra.
  - left. reflexivity.
Qed.
Lemma finite_mul x y : finite x -> finite y -> finite (nmul x y). Proof. intros (a & ->) (b & ->). exists (a * b). reflexivity. Qed.
Lemma finite_add x y : finite x -> finite y -> finite (nadd x y). Proof. intros (a & ->) (b & ->). exists (a + b). reflexivity. Qed.
Lemma honest_finite {K L} (E : env L) (s : hst K) r f : finite_fit E -> honest E s r -> has_fit s r f -> finite f.
Proof.
  intros HN (bits & a & g & g' & HS & HL & HF) Hf. assert (has_fit s r (sfitness a)) by (exists bits, a; auto).
  rewrite (has_fit_fun _ _ _ _ Hf H). unfold sol_fit in HF. destruct (sol_predict L (emix E) bits (epool E) (eX E) true g) as [[p|e] g1]; [|discriminate].
  destruct (_ || _); [discriminate|]. inversion HF; subst. cbn [sfitness]. apply HN.
Qed.

Section Range.
Variables (B : builder) (tau0 : Q) (ok : (num -> Prop) -> nat -> ph B -> Prop) (c : acfg).
Hypothesis HB : builder_ok B tau0 ok.
Hypothesis Hid : forall p, ph_map B (fun x => x) p = p.
Hypothesis Hmm : a_min c <= a_max c.

Definition exactly (Q : num -> Prop) (st : option (ph B)) (n : nat) : Prop := exists p, st = Some p /\ ok Q n p.
Lemma aco_finite {L} (E : env L) : finite_fit E -> contract_for E (aco B c) (pheromones_ok B ok finite).
Proof.
  intros HF. split; [intros; eapply pheromones_ok_mono; eauto|]. intros A ini s pop i I HG HO _. cbn [orun aco].
  eapply safe_post; [eapply (safe_aco_run E A B tau0 ok c HB finite finite); eauto|].
  - intros x Hx. apply finite_mul; auto. eexists; reflexivity.
  - intros s0 r f Hh Hf. pose proof (honest_finite E s0 r f HF Hh Hf) as Hff.
    assert (finite (nmul f (Fin (a_c c)))) by (apply finite_mul; auto; eexists; reflexivity).
    split; intros; apply finite_add; auto. apply finite_mul; auto. eexists; reflexivity.
  - intros x Hx. destruct (nclip_finite (a_min c) (a_max c) x Hmm Hx) as (q & -> & _). exists q; auto.
  - exists tau0; auto.
  - intros [q i'] s' _ (H1 & H2 & _ & p & H3 & H4 & _). cbn [fst snd] in *. subst i'. split; auto. split; auto. cbn. eauto.
Qed.
Lemma aco_post {L} (E : env L) : finite_fit E -> a_iter c <> 0%nat -> epool E <> [] ->
  contract_post E (aco B c) (pheromones_ok B ok finite) (exactly (in_range (a_min c) (a_max c))).
Proof.
  intros HF HI HP. split; [intros; eapply pheromones_ok_mono; eauto|]. split; [|congruence]. intros A ini s pop i I HG HO _. cbn [orun aco].
  eapply safe_post; [eapply (safe_aco_run E A B tau0 ok c HB finite (in_range (a_min c) (a_max c))); eauto|].
  - intros x Hx. apply finite_mul; auto. eexists; reflexivity.
  - intros s0 r f Hh Hf. pose proof (honest_finite E s0 r f HF Hh Hf) as Hff.
    assert (finite (nmul f (Fin (a_c c)))) by (apply finite_mul; auto; eexists; reflexivity).
    split; intros; apply finite_add; auto. apply finite_mul; auto. eexists; reflexivity.
  - intros x Hx. apply nclip_finite; auto.
  - intros x (q & -> & _). exists q; auto.
  - exists tau0; auto.
  - intros [q i'] s' _ (H1 & H2 & _ & p & H3 & _ & H4). cbn [fst snd] in *. subst i'. split; auto. split; auto. exists p. auto.
Qed.
Lemma aco_post_any {L} (E : env L) : a_iter c <> 0%nat -> epool E <> [] ->
  contract_post E (aco B c) (pheromones_ok B ok (fun _ => True)) (exactly (in_range_or_nan (a_min c) (a_max c))).
Proof.
  intros HI HP. split; [intros; eapply pheromones_ok_mono; eauto|]. split; [|congruence]. intros A ini s pop i I HG HO _. cbn [orun aco].
  eapply safe_post; [eapply (safe_aco_run E A B tau0 ok c HB (fun _ => True) (in_range_or_nan (a_min c) (a_max c))); eauto using keeps_mark_true|].
  - intros x _. apply nclip_any; auto.
  - intros [q i'] s' _ (H1 & H2 & _ & p & H3 & _ & H4). cbn [fst snd] in *. subst i'. split; auto. split; auto. exists p. auto.
Qed.
Lemma aco_range {L} cc steps (E : env L) g g0 st s : a_iter c <> 0%nat -> epool E <> [] ->
  Forall (fun z => finite_fit (fst z)) (steps ++ [(E, g)]) -> one_fit (steps ++ [(E, g)]) ->
  compose (aco B c) cc (steps ++ [(E, g)]) (fresh_comp (aco B c) None) (mkH [] [] g0) = (Ok st, s) ->
  exactly (in_range (a_min c) (a_max c)) (cint st) (length (epool E)).
Proof.
  intros HI HP HF H1 HX. apply Forall_app in HF as [HF HFE]. apply Forall_inv in HFE. cbn [fst] in HFE.
  eapply (compose_last_post (aco B c) cc (pheromones_ok B ok finite)) with (m := 0%nat) (steps := steps) (g := g).
  - revert HF. apply Forall_impl. intros z. apply aco_finite.
  - apply aco_post; auto.
  - apply (fresh_cinv (aco B c) _ None g0). exact Logic.I.
  - apply one_fit_growing; auto. destruct (steps ++ [(E, g)]) as [|[? ?] ?]; auto. lia.
  - reflexivity.
  - exact HX.
Qed.
Lemma aco_range_any {L} cc steps (E : env L) g g0 st s : a_iter c <> 0%nat -> epool E <> [] -> one_fit (steps ++ [(E, g)]) ->
  compose (aco B c) cc (steps ++ [(E, g)]) (fresh_comp (aco B c) None) (mkH [] [] g0) = (Ok st, s) ->
  exactly (in_range_or_nan (a_min c) (a_max c)) (cint st) (length (epool E)).
Proof.
  intros HI HP H1 HX.
  eapply (compose_last_post (aco B c) cc (pheromones_ok B ok (fun _ => True))) with (m := 0%nat) (steps := steps) (g := g).
  - apply Forall_forall. intros z _. apply contract_at. eapply aco_contract; eauto.
  - apply aco_post_any; auto.
  - apply (fresh_cinv (aco B c) _ None g0). exact Logic.I.
  - apply one_fit_growing; auto. destruct (steps ++ [(E, g)]) as [|[? ?] ?]; auto. lia.
  - reflexivity.
  - exact HX.
Qed.
End Range.

Lemma binary_in_range {L} A b c cc steps (E : env L) g g0 st s : a_min c <= a_max c -> a_iter c <> 0%nat -> epool E <> [] ->
  Forall (fun z => finite_fit (fst z)) (steps ++ [(E, g)]) -> one_fit (steps ++ [(E, g)]) ->
  compose (aco (Binary A b) c) cc (steps ++ [(E, g)]) (fresh_comp (aco (Binary A b) c) None) (mkH [] [] g0) = (Ok st, s) ->
  exists p, cint st = Some p /\ pairs_for (in_range (a_min c) (a_max c)) (length (epool E)) p.
Proof. intros Hm. apply (aco_range (Binary A b) (b_tau0 b) pairs_for c (binary_ok A b) (binary_map_id A b) Hm). Qed.
Lemma complete_in_range {L} A b partial c cc steps (E : env L) g g0 st s : a_min c <= a_max c -> a_iter c <> 0%nat -> epool E <> [] ->
  Forall (fun z => finite_fit (fst z)) (steps ++ [(E, g)]) -> one_fit (steps ++ [(E, g)]) ->
  compose (aco (Complete A b partial) c) cc (steps ++ [(E, g)]) (fresh_comp (aco (Complete A b partial) c) None) (mkH [] [] g0) = (Ok st, s) ->
  exists p, cint st = Some p /\ square_for (in_range (a_min c) (a_max c)) (length (epool E)) p.
Proof. intros Hm. apply (aco_range (Complete A b partial) (b_tau0 b) square_for c (complete_ok A b partial) (complete_map_id A b partial) Hm). Qed.
Lemma binary_in_range_any {L} A b c cc steps (E : env L) g g0 st s : a_min c <= a_max c -> a_iter c <> 0%nat -> epool E <> [] ->
  one_fit (steps ++ [(E, g)]) ->
  compose (aco (Binary A b) c) cc (steps ++ [(E, g)]) (fresh_comp (aco (Binary A b) c) None) (mkH [] [] g0) = (Ok st, s) ->
  exists p, cint st = Some p /\ pairs_for (in_range_or_nan (a_min c) (a_max c)) (length (epool E)) p.
Proof. intros Hm. apply (aco_range_any (Binary A b) (b_tau0 b) pairs_for c (binary_ok A b) (binary_map_id A b) Hm). Qed.
Lemma complete_in_range_any {L} A b partial c cc steps (E : env L) g g0 st s : a_min c <= a_max c -> a_iter c <> 0%nat -> epool E <> [] ->
  one_fit (steps ++ [(E, g)]) ->
  compose (aco (Complete A b partial) c) cc (steps ++ [(E, g)]) (fresh_comp (aco (Complete A b partial) c) None) (mkH [] [] g0) = (Ok st, s) ->
  exists p, cint st = Some p /\ square_for (in_range_or_nan (a_min c) (a_max c)) (length (epool E)) p.
Proof. intros Hm. apply (aco_range_any (Complete A b partial) (b_tau0 b) square_for c (complete_ok A b partial) (complete_map_id A b partial) Hm). Qed.

(* ----- selection probabilities ----- *)
Lemma measured_fitness {L} (pool : list (rule L)) fs : measured pool fs -> rmap (fitness_of L) pool = Ok (map Fin fs).
Proof.
  induction 1 as [|r q pool fs H _ IH]; cbn [rmap map]; auto. rewrite H. cbn [rbind]. rewrite IH. reflexivity.
Qed.
Lemma fold_nmin fs : forall x, exists m, fold_left nmin2 (map Fin fs) (Fin x) = Fin m /\ In m (x :: fs) /\ m <= x /\ Forall (fun f => m <= f) fs.
Proof.
  induction fs as [|f fs IH]; intros x; cbn [map fold_left].
  - exists x. cbn. repeat split; auto. lra.
  - unfold nmin2 at 2. cbn [is_nan nlt]. destruct (qlt_spec f x) as [H|H].
    + destruct (IH f) as (m & -> & HI & H1 & H2). exists m. split; auto. split; [right; auto|]. split; [lra|]. constructor; auto.
    + destruct (IH x) as (m & -> & HI & H1 & H2). exists m. split; auto. split; [destruct HI as [->|HI]; [left; auto|right; right; auto]|]. split; auto. constructor; auto. lra.
Qed.
Lemma fold_nmax fs : forall x, exists m, fold_left nmax2 (map Fin fs) (Fin x) = Fin m /\ In m (x :: fs) /\ x <= m /\ Forall (fun f => f <= m) fs.
Proof.
  induction fs as [|f fs IH]; intros x; cbn [map fold_left].
  - exists x. cbn. repeat split; auto. lra.
  - unfold nmax2 at 2. cbn [is_nan nlt]. destruct (qlt_spec x f) as [H|H].
    + destruct (IH f) as (m & -> & HI & H1 & H2). exists m. split; auto. split; [right; auto|]. split; [lra|]. constructor; auto.
    + destruct (IH x) as (m & -> & HI & H1 & H2). exists m. split; auto. split; [destruct HI as [->|HI]; [left; auto|right; right; auto]|]. split; auto. constructor; auto. lra.
Qed.
Lemma relative_spec {L} (pool : list (rule L)) fs : measured pool fs -> pool <> [] ->
  exists lo hi, In lo fs /\ In hi fs /\ Forall (fun f => lo <= f <= hi) fs /\
    relative_fitness pool = Ok (map (fun f => let v := nmul (ndiv (Fin (f - lo)) (Fin (hi - lo))) (Fin (1#2)) in (nadd (Fin 1) (nneg v), nadd (Fin 1) v)) fs).
Proof.
  intros HM HP. unfold relative_fitness. rewrite (measured_fitness _ _ HM). cbn [rbind].
  destruct fs as [|f fs]; [inversion HM; congruence|]. cbn [map nmin nmax rbind].
  destruct (fold_nmin fs f) as (lo & -> & H1 & H2 & H3). destruct (fold_nmax fs f) as (hi & -> & H4 & H5 & H6).
  exists lo, hi. split; auto. split; auto. split.
  - constructor; [lra|]. rewrite Forall_forall in *. intros x Hx. split; auto.
  - cbn [rbind nsub]. rewrite map_map. reflexivity.
Qed.

Lemma normalized_pos w0 w1 : 0 < w0 -> 0 < w1 -> exists q, normalized (Fin w0, Fin w1) = Fin q /\ 0 < q < 1.
Proof.
  intros H0 H1. unfold normalized. cbn [fst snd nadd ndiv]. destruct (qeq_spec (w0 + w1) 0); [lra|]. exists (w1 / (w0 + w1)). split; auto.
  assert (0 < / (w0 + w1)) by (apply Qinv_lt_0_compat; lra). split; [unfold Qdiv; nra|].
  apply Qlt_shift_div_r; lra.
Qed.
Lemma weigh_pos A b t0 t1 e0 e1 : pow_pos A -> 0 < t0 -> 0 < t1 -> 0 < e0 -> 0 < e1 ->
  exists q, normalized (weigh A b (Fin t0, Fin t1) (Fin e0, Fin e1)) = Fin q /\ 0 < q < 1.
Proof.
  intros HA H0 H1 H2 H3. unfold weigh. cbn [fst snd].
  destruct (HA t0 (b_alpha b) H0) as (a0 & -> & ?). destruct (HA t1 (b_alpha b) H1) as (a1 & -> & ?).
  destruct (HA e0 (b_beta b) H2) as (c0 & -> & ?). destruct (HA e1 (b_beta b) H3) as (c1 & -> & ?).
  cbn [nmul]. apply normalized_pos; nra.
Qed.
(* the heuristic values lie in [1/2, 1] and [1, 3/2] *)
Lemma heuristic_range lo hi f : lo < hi -> lo <= f <= hi ->
  let v := nmul (ndiv (Fin (f - lo)) (Fin (hi - lo))) (Fin (1#2)) in
  exists e0 e1, (nadd (Fin 1) (nneg v), nadd (Fin 1) v) = (Fin e0, Fin e1) /\ (1#2) <= e0 <= 1 /\ 1 <= e1 <= 3#2.
Proof.
  intros HL HF. cbv zeta. cbn [ndiv]. destruct (qeq_spec (hi - lo) 0); [lra|]. cbn [nmul nneg nadd].
  assert (H0 : 0 <= (f - lo) / (hi - lo)) by (apply Qle_shift_div_l; lra).
  assert (H1 : (f - lo) / (hi - lo) <= 1) by (apply Qle_shift_div_r; lra).
  eexists _, _. split; [reflexivity|]. split; lra.
Qed.
Lemma varied_lt fs lo hi : varied fs -> Forall (fun f => lo <= f <= hi) fs -> lo < hi.
Proof. intros (f & f' & H1 & H2 & H3) HF. rewrite Forall_forall in HF. pose proof (HF f H1). pose proof (HF f' H2). lra. Qed.

Lemma binary_selectable {L} A b (pool : list (rule L)) fs p : pow_pos A -> measured pool fs -> varied fs -> pairs_for positive (length pool) p ->
  exists probs, length probs = length pool /\ Forall (fun w => 0 < w < 1) probs /\
    forall s, exists s', ph_build (Binary A b) L p pool s = (Ok (map2 (fun u w => qle u w) (fst (randoms (length pool) (hrng s))) probs), s').
Proof.
  intros HA HM HV [HL HP]. assert (HN : pool <> []).
  { destruct HV as (f & _ & H & _). destruct pool; [|discriminate]. inversion HM; subst. destruct H. }
  destruct (relative_spec pool fs HM HN) as (lo & hi & _ & _ & HF & HR). pose proof (varied_lt fs lo hi HV HF) as HLt.
  pose proof (Forall2_length _ _ _ HM) as HLf.
  match type of HR with _ = Ok ?e => set (eta := e) in * end.
  assert (HE : exists probs, length probs = length pool /\ Forall (fun w => 0 < w < 1) probs /\ map2 (fun t e => normalized (weigh A b t e)) p eta = map Fin probs).
  { assert (Hlen : length p = length fs) by lia. rewrite HLf. unfold eta. clear - HA HP HF HLt Hlen. revert fs Hlen HF.
    induction HP as [|[t0 t1] p [(q0 & H0 & P0) (q1 & H1 & P1)] HP IH]; intros [|f fs] Hlen HF; try discriminate; [exists []; auto|].
    cbn in H0, H1. subst t0 t1. inversion HF as [|? ? Hf HF']; subst. destruct (IH fs) as (probs & I1 & I2 & I3); [cbn in Hlen; lia|auto|].
    destruct (heuristic_range lo hi f HLt Hf) as (e0 & e1 & He & [He0 _] & [He1 _]). cbv zeta in He.
    destruct (weigh_pos A b q0 q1 e0 e1 HA P0 P1) as (q & Hq & Hq01); [lra|lra|].
    exists (q :: probs). split; [cbn; lia|]. split; [constructor; auto|]. cbn [map map2]. rewrite He, Hq, I3. reflexivity. }
  destruct HE as (probs & H1 & H2 & H3). exists probs. split; auto. split; auto. intros s.
  cbn [ph_build Binary]. unfold bin_build. rewrite (bind_ok _ _ _ eta s) by (rewrite HR; reflexivity).
  rewrite HL, Nat.eqb_refl. cbn [negb]. unfold rnd1. destruct (randoms (length pool) (hrng s)) as [us g] eqn:EU.
  exists (with_r s g). rewrite (bind_ok _ _ _ us (with_r s g)); [|rewrite rnd_eq; rewrite EU; reflexivity].
  rewrite H3. cbn [fst]. unfold ret. f_equal. f_equal. clear. revert probs. induction us as [|u us IH]; intros [|w probs]; cbn [map map2]; auto. rewrite IH. reflexivity.
Qed.

Lemma nan_heuristic {L} (pool : list (rule L)) fs : measured pool fs -> pool <> [] -> all_same fs ->
  relative_fitness pool = Ok (repeat (NaN, NaN) (length pool)).
Proof.
  intros HM HN HS. destruct (relative_spec pool fs HM HN) as (lo & hi & H1 & H2 & HF & ->). f_equal.
  rewrite (Forall2_length _ _ _ HM). assert (HE : Forall (fun f => f == lo /\ hi == lo) fs).
  { apply Forall_forall. intros f Hf. split; auto. }
  clear - HE. induction HE as [|f fs [Hf Hh] _ IH]; auto. cbn [map length repeat]. f_equal; [|exact IH].
  cbn [ndiv]. destruct (qeq_spec (hi - lo) 0); [|lra]. destruct (qeq_spec (f - lo) 0); [|lra]. reflexivity.
Qed.
Lemma weigh_nan A b t : m_pow A NaN (b_beta b) = NaN -> normalized (weigh A b t (NaN, NaN)) = NaN.
Proof.
  intros H. unfold weigh, normalized. cbn [fst snd]. rewrite H.
  assert (HX : forall x, nmul x NaN = NaN) by (intros [| | |]; reflexivity). rewrite !HX. reflexivity.
Qed.
Lemma binary_nothing {L} A b (pool : list (rule L)) fs p s : m_pow A NaN (b_beta b) = NaN -> measured pool fs -> pool <> [] -> all_same fs ->
  length p = length pool -> exists s', ph_build (Binary A b) L p pool s = (Ok (repeat false (length pool)), s').
Proof.
  intros HA HM HN HS HL. cbn [ph_build Binary]. unfold bin_build.
  rewrite (bind_ok _ _ _ (repeat (NaN, NaN) (length pool)) s) by (rewrite (nan_heuristic _ _ HM HN HS); reflexivity).
  rewrite HL, Nat.eqb_refl. cbn [negb]. unfold rnd1. destruct (randoms (length pool) (hrng s)) as [us g] eqn:EU.
  exists (with_r s g). rewrite (bind_ok _ _ _ us (with_r s g)); [|rewrite rnd_eq; rewrite EU; reflexivity].
  unfold ret. f_equal. f_equal. pose proof (randoms_length (length pool) (hrng s)) as HU. rewrite EU in HU. cbn [fst] in HU.
  rewrite <- HL in *. clear - HA HU. revert us HU. induction p as [|t p IH]; intros [|u us] HU; try discriminate; auto.
  cbn [length repeat map2]. rewrite weigh_nan; auto. cbn [nle]. f_equal. apply IH. cbn in HU. lia.
Qed.
Lemma complete_nothing {L} A b partial (pool : list (rule L)) fs p s : m_pow A NaN (b_beta b) = NaN -> m_sqrt A NaN = NaN ->
  measured pool fs -> pool <> [] -> all_same fs -> square_for (fun _ => True) (length pool) p ->
  exists s', ph_build (Complete A b partial) L p pool s = (Ok (repeat false (length pool)), s').
Proof.
  intros HA HQ HM HN HS [HL HP]. cbn [ph_build Complete]. unfold com_build.
  rewrite (bind_ok _ _ _ (repeat (NaN, NaN) (length pool)) s) by (rewrite (nan_heuristic _ _ HM HN HS); reflexivity).
  set (eta := repeat (NaN, NaN) (length pool)).
  assert (HProb : forall j, (j < length pool)%nat -> com_prob A b partial p pool eta [] j = Ok NaN).
  { intros j Hj. unfold com_prob. destruct (nth_error pool j) as [r|] eqn:Er; [|apply nth_error_None in Er; lia]. cbn [of_option rbind].
    assert (He : nth_error eta j = Some (NaN, NaN)) by (apply nth_error_repeat; auto). rewrite He. cbn [of_option rbind rev rmap].
    assert (HT : exists taus, rmap (fun i => entry p i j) (seq 0 (length p)) = Ok taus).
    { assert (HI : forall i, In i (seq 0 (length p)) -> (i < length p)%nat) by (intros i Hi; apply in_seq in Hi; lia).
      revert HI. generalize (seq 0 (length p)) as l. induction l as [|i l IH]; intros HI; [eexists; reflexivity|]. cbn [rmap]. unfold entry at 1.
      destruct (nth_error p i) as [row|] eqn:Ei; [|apply nth_error_None in Ei; pose proof (HI i (or_introl eq_refl)); lia]. cbn [of_option rbind].
      rewrite Forall_forall in HP. destruct (HP row (nth_error_In _ _ Ei)) as [HLr _].
      destruct (nth_error row j) as [t|] eqn:Et; [|apply nth_error_None in Et; lia]. cbn [of_option rbind].
      destruct IH as (ts & ->); [intros; apply HI; right; auto|]. eexists; reflexivity. }
    destruct HT as (taus & ->). cbn [rbind fst snd nmul]. rewrite HQ. rewrite weigh_nan; auto. }
  unfold rnd1. destruct (shuffle (seq 0 (length pool)) (hrng s)) as [order g] eqn:EO.
  rewrite (bind_ok _ _ _ order (with_r s g)); [|rewrite rnd_eq; rewrite EO; reflexivity].
  assert (HO : Forall (fun j => (j < length pool)%nat) order).
  { apply Forall_forall. intros j Hj. pose proof (shuffle_perm (seq 0 (length pool)) (hrng s)) as HPm. rewrite EO in HPm. cbn [fst] in HPm.
    assert (In j (seq 0 (length pool))) as Hs by (eapply Permutation_in; [|exact Hj]; (exact HPm || (symmetry; exact HPm))). apply in_seq in Hs. lia. }
  assert (HRoute : forall (s0 : hst plain), exists s', com_route (com_visit A b partial p pool eta) order [] s0 = (Ok [], s')).
  { clear - HO HProb. induction HO as [|j order Hj _ IH]; intros s0; cbn [com_route]; [eexists; reflexivity|].
    assert (HV : exists s1, com_visit A b partial p pool eta [] j s0 = (Ok [], s1)).
    { unfold com_visit. rewrite (bind_ok _ _ _ NaN s0) by (rewrite (HProb j Hj); reflexivity).
      unfold rnd1. destruct (random (hrng s0)) as [u g] eqn:EU. exists (with_r s0 g).
      rewrite (bind_ok _ _ _ u (with_r s0 g)); [|rewrite rnd_eq; rewrite EU; reflexivity]. reflexivity. }
    destruct HV as (s1 & HV). destruct (IH s1) as (s' & HI). exists s'. rewrite (bind_ok _ _ _ _ _ HV). exact HI. }
  destruct (HRoute (with_r s g)) as (s' & HR). exists s'. rewrite (bind_ok _ _ _ _ _ HR). unfold ret. f_equal. f_equal.
  clear. generalize 0%nat as k. induction (length pool) as [|n IH]; intros k; cbn [seq map repeat]; auto. rewrite IH. reflexivity.
Qed.
(* as the first rule of a route every rule can be selected and left out *)
Lemma complete_first {L} A b partial (pool : list (rule L)) fs p j : pow_pos A -> sqrt_pos A ->
  measured pool fs -> varied fs -> square_for positive (length pool) p -> (j < length pool)%nat ->
  exists eta q, relative_fitness pool = Ok eta /\ com_prob A b partial p pool eta [] j = Ok (Fin q) /\ 0 < q < 1.
Proof.
  intros HA HQ HM HV [HL HP] Hj. assert (HN : pool <> []) by (destruct pool; [cbn in Hj; lia|discriminate]).
  destruct (relative_spec pool fs HM HN) as (lo & hi & _ & _ & HF & HR). pose proof (varied_lt fs lo hi HV HF) as HLt.
  pose proof (Forall2_length _ _ _ HM) as HLf. eexists. 
  destruct (nth_error fs j) as [f|] eqn:Ef; [|apply nth_error_None in Ef; lia].
  assert (Hf : lo <= f <= hi) by (rewrite Forall_forall in HF; apply HF; eapply nth_error_In; eauto).
  destruct (heuristic_range lo hi f HLt Hf) as (e0 & e1 & He & [He0 _] & [He1 _]). cbv zeta in He.
  assert (HT : exists taus, rmap (fun i => entry p i j) (seq 0 (length p)) = Ok taus /\ Forall (fun t => positive (fst t) /\ positive (snd t)) taus /\ length taus = length (seq 0 (length p))).
  { assert (HI : forall i, In i (seq 0 (length p)) -> (i < length p)%nat) by (intros i Hi; apply in_seq in Hi; lia).
    revert HI. generalize (seq 0 (length p)) as l. induction l as [|i l IH]; intros HI; [exists []; auto|]. cbn [rmap]. unfold entry at 1.
    destruct (nth_error p i) as [row|] eqn:Ei; [|apply nth_error_None in Ei; pose proof (HI i (or_introl eq_refl)); lia]. cbn [of_option rbind].
    rewrite Forall_forall in HP. destruct (HP row (nth_error_In _ _ Ei)) as [HLr HPr].
    destruct (nth_error row j) as [t|] eqn:Et; [|apply nth_error_None in Et; lia]. cbn [of_option rbind].
    destruct IH as (ts & -> & HPt & HLt'); [intros; apply HI; right; auto|]. exists (t :: ts). split; [reflexivity|]. split; [constructor; auto|cbn; lia].
    rewrite Forall_forall in HPr. apply HPr. eapply nth_error_In; eauto. }
  destruct HT as (taus & HT & HPt & HLt'). rewrite seq_length in HLt'.
  assert (HSum : forall l, Forall positive l -> l <> [] -> positive (nsum l)).
  { intros l Hl. unfold nsum. destruct Hl as [|x l (q & -> & Hq) Hl]; [congruence|]. intros _. cbn [fold_left nadd].
    assert (Hq' : 0 < 0 + q) by lra. revert Hq'. generalize (0 + q) as acc. induction Hl as [|y l (r & -> & Hr) _ IH]; intros acc Hacc; cbn [fold_left]; [exists acc; auto|].
    cbn [nadd]. apply IH. lra. }
  assert (HS0 : positive (nsum (map fst taus))).
  { apply HSum; [apply Forall_map; revert HPt; apply Forall_impl; intros t [H _]; exact H|]. destruct taus; [cbn in HLt'; lia|discriminate]. }
  assert (HS1 : positive (nsum (map snd taus))).
  { apply HSum; [apply Forall_map; revert HPt; apply Forall_impl; intros t [_ H]; exact H|]. destruct taus; [cbn in HLt'; lia|discriminate]. }
  destruct HS0 as (t0 & Ht0 & P0). destruct HS1 as (t1 & Ht1 & P1).
  destruct (HQ (e0 * 1)) as (h0 & Hh0 & Ph0); [lra|]. destruct (HQ (e1 * 1)) as (h1 & Hh1 & Ph1); [lra|].
  destruct (weigh_pos A b t0 t1 h0 h1 HA P0 P1 Ph0 Ph1) as (q & Hq & Hq01). exists q. split; [exact HR|]. split; auto.
  unfold com_prob. destruct (nth_error pool j) as [r|] eqn:Er; [|apply nth_error_None in Er; lia]. cbn [of_option rbind].
  rewrite nth_error_map, Ef. cbn [option_map of_option rbind rev rmap]. rewrite He, HT. cbn [rbind fst snd nmul]. rewrite Hh0, Hh1. unfold pair_sum. rewrite Ht0, Ht1, Hq. reflexivity.
Qed.

(* ----- examples ----- *)
Definition plain_math : amath := mkAmath (fun x _ => x) (fun x => x).
Definition aco_cfg : acfg := mkA 2 3 (78#100) 10 (1#10) 1 (1#100) true.
Lemma ex_measured f : measured (epool (count_env f)) [1; 2; 1].
Proof. repeat constructor. Qed.
Definition twins : list (rule mean_learner) := [fitted_rule 0 1 1 1 1; fitted_rule 2 3 1 1 1].
Lemma twins_measured : measured twins [1; 1]. Proof. repeat constructor. Qed.
Lemma twins_same : all_same [1; 1]. Proof. intros f f' [<-|[<-|[]]] [<-|[<-|[]]]; reflexivity. Qed.
Lemma binary_twins A b : m_pow A NaN (b_beta b) = NaN -> exists (pool : list (rule mean_learner)) fs, pool <> [] /\ measured pool fs /\
  forall p s, length p = length pool -> exists s', ph_build (Binary A b) mean_learner p pool s = (Ok (repeat false (length pool)), s').
Proof.
  intros HA. exists twins, [1; 1]. split; [discriminate|]. split; [apply twins_measured|]. intros p s HL.
  eapply binary_nothing; eauto; [apply twins_measured|discriminate|apply twins_same].
Qed.
Lemma complete_twins A b partial : m_pow A NaN (b_beta b) = NaN -> m_sqrt A NaN = NaN -> exists (pool : list (rule mean_learner)) fs, pool <> [] /\ measured pool fs /\
  forall p s, square_for (fun _ => True) (length pool) p -> exists s', ph_build (Complete A b partial) mean_learner p pool s = (Ok (repeat false (length pool)), s').
Proof.
  intros HA HQ. exists twins, [1; 1]. split; [discriminate|]. split; [apply twins_measured|]. intros p s HL.
  eapply complete_nothing; eauto; [apply twins_measured|discriminate|apply twins_same].
Qed.
