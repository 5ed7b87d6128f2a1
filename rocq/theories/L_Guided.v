(* The model found so far is handed to the discovery, and new rules cover what it misses. *)
From Coq Require Import Lia.
From Verif Require Import PyNum PyList PyMon PyRng L_Num L_List L_Rng M_Matching S_Matching L_Matching M_Rule S_Rule M_RuleGen L_RuleGen L_RuleGenProps M_Mixing M_GenomeOps M_Discovery S_Discovery L_Discovery L_DiscoveryProps L_Origin
  M_Novelty L_SasProps M_Fit S_Fit L_Fit L_FitInv L_FitProps M_Shipped S_Shipped L_ShippedFit S_Constrained L_Constrained S_Guided.
From Coq Require Import Lqa.

Lemma elitist_handed_on : forall (L : learner) (D : discovery L) (C : composition L) (G : logger L) p os X y (e : est (recorded_d D) (recorded_c C) G) r e' k call,
  ready D C G p X y -> fit p os false X y e = (r, e') -> nth_error (dcalls e') k = Some call ->
  handed_on C (if Nat.ltb 0 (n_initial p) then 1 else 0) (ccalls e') k call.
Proof.
  intros L D C G p os X y e r e' k call HR HE HC. destruct (any_rcd L D C G p os X y e HR r e' HE) as (k0 & nd & nc & _ & H1 & H2 & H3 & H).
  pose proof (rc_elite _ _ _ _ _ _ _ _ _ _ _ _ _ H k call HC) as HO.
  assert (HK : k0 = (if Nat.ltb 0 (n_initial p) then 1 else 0)%nat \/ (k0 = 0 /\ nc = 0)%nat).
  { destruct nc; [|left; apply H1; lia]. pose proof (rc_k0 _ _ _ _ _ _ _ _ _ _ _ _ _ H). destruct (Nat.ltb_spec 0 (n_initial p)); [|left; apply H3; lia]. destruct k0 as [|[|]]; auto. lia. }
  destruct HK as [<-|[-> ->]]; [exact HO|]. pose proof (rc_clen _ _ _ _ _ _ _ _ _ _ _ _ _ H) as HL. destruct (ccalls e') as [|c0 cs]; [|discriminate].
  unfold handed_on in *. rewrite Nat.sub_0_r in HO. destruct k as [|k]; [destruct (Nat.ltb 0 (n_initial p)); exact HO|]. destruct HO as (cc & b & HO & _). destruct k; discriminate HO.
Qed.

(* ----- new rules cover one of the origins ----- *)
Section Covers.
Context {L : learner}.
Variables (D : denv L) (d : nat) (mr : Q) (bs : bounds) (J : row -> Prop).
Hypothesis HT : table d (dX D) (dy D).
Hypothesis HB : estimate_bounds (dX D) = Ok bs.
Hypothesis HP : proper_space bs.
Hypothesis HL : length bs = d.
Definition keen (r : rule L) : Prop := good L D d r /\ mt (cond r) = OrderedBound /\ exists x, J x /\ in_space bs x /\ covers (cond r) x.
Lemma new_keen c x g r g' : d_type c = OrderedBound -> around (d_init c) -> d_constraint c = CombinedConstraint mr bs -> J x -> in_space bs x -> new_rule c D x g = (Ok r, g') -> keen r.
Proof.
  intros Ht Hi Hc HJ HX H. assert (HLx : length x = d). { rewrite <- HL. clear - HX. unfold in_space in HX. induction HX; cbn; congruence. }
  pose proof (new_rule_good L D d HT c x g r g') as HG. rewrite Hc in HG. specialize (HG HL HLx H).
  unfold new_rule in H. apply bind_inv in H as (m & g2 & H1 & H). unfold lift in H. injection H as H _. apply fitted_cond in H. rewrite Hc in H. rewrite Ht in H1.
  destruct (fresh_ordered_all (d_init c) x g mr bs Hi HP HX) as (m' & g3 & H2 & _ & H3). rewrite H2 in H1. injection H1 as -> _.
  split; [exact HG|]. rewrite H. split; [rewrite constrain_mt; exact (proj1 (init_rule_shape _ _ _ _ _ _ H2))|]. exists x. auto.
Qed.
Lemma mutant_keen c mu q g r g' : growing mu -> d_constraint c = CombinedConstraint mr bs -> keen q -> mutant c mu D q g = (Ok r, g') -> keen r.
Proof.
  intros Hg Hc (HQ & Ht & x & HJ & HX & HC) H. pose proof (mutant_good L D d HT c mu q g r g') as HG. rewrite Hc in HG. specialize (HG HL HQ H).
  unfold mutant in H. apply bind_inv in H as (m & g2 & H1 & H). unfold lift in H. injection H as H _. apply fitted_cond in H. rewrite Hc in H.
  destruct (growing_inv _ _ _ _ _ Hg Ht H1) as (A & B & A2 & A3). split; [exact HG|]. rewrite H. split; [rewrite constrain_mt; exact A|]. exists x. split; [exact HJ|]. split; [exact HX|].
  apply (combined_ordered m mr bs A); auto. rewrite B, (proj2 HQ). exact HL.
Qed.
Lemma es_keen c n kids g out g' : d_type (es_d c) = OrderedBound -> around (d_init (es_d c)) -> growing (es_mut c) -> d_constraint (es_d c) = CombinedConstraint mr bs ->
  (forall g xs g', origins (d_origin (es_d c)) D n g = (Ok xs, g') -> Forall J xs) -> es_optimize c D n kids g = (Ok out, g') -> Forall keen out.
Proof.
  intros Ht Hi Hg Hc HO. apply (es_inv c D keen (fun x => J x /\ in_space bs x)).
  - intros q g0 r g1. apply mutant_keen; auto.
  - intros x g0 r g1 [H1 H2]. apply new_keen; auto.
  - intros g0 xs g1 H. pose proof (HO _ _ _ H) as H1. pose proof (origins_within _ D d n g0 xs g1 bs HT HB H) as H2. clear - H1 H2. induction H1; inversion H2; constructor; auto.
Qed.
Lemma rs_keen c n g out g' : d_type (rs_d c) = OrderedBound -> around (d_init (rs_d c)) -> d_constraint (rs_d c) = CombinedConstraint mr bs ->
  (forall m g xs g', origins (d_origin (rs_d c)) D m g = (Ok xs, g') -> Forall J xs) -> rs_optimize c D n g = (Ok out, g') -> Forall keen out.
Proof.
  intros Ht Hi Hc HO H. unfold rs_optimize in H. apply bind_inv in H as (o & g1 & H1 & H). unfold lift in H. injection H as H _. apply filter_invalid_in in H.
  apply (repeat_m_all (Forall keen)) in H1.
  - destruct H1 as [_ H1]. apply Forall_forall. intros r Hr. apply H in Hr. apply in_concat in Hr as (l & Hl & Hr). rewrite Forall_forall in H1. specialize (H1 l Hl). rewrite Forall_forall in H1. auto.
  - intros g0 l g2 E. unfold rs_one in E. apply bind_inv in E as (xs & g3 & E1 & E). apply bind_inv in E as (rs & g4 & E2 & E).
    pose proof (HO _ _ _ _ E1) as E3. apply (origins_within _ D d _ _ _ _ bs HT HB) in E1. apply pick_in in E as [E _].
    assert (E4 : Forall keen rs).
    { clear - E1 E2 E3 HT HP HL Ht Hi Hc. revert rs g4 g3 E2. induction xs as [|x xs IH]; intros rs g4 g3 E2; cbn [mmap] in E2; [injection E2 as <- _; constructor|].
      inversion E1; subst. inversion E3; subst. apply bind_inv in E2 as (r & g5 & F1 & E2). apply bind_inv in E2 as (rs' & g6 & F2 & E2). injection E2 as <- _.
      constructor; [eapply new_keen; eauto|eapply IH; eauto]. }
    rewrite Forall_forall in E, E4 |- *. auto.
Qed.
End Covers.

(* ----- during fit ----- *)
Lemma es_new_same c c' : es_new c = Ok c' -> c' = c.
Proof. unfold es_new. destruct (es_operator c); try (injection 1 as <-; reflexivity). destruct (assert_ _); [|discriminate]. injection 1 as <-. reflexivity. Qed.
(* the rules of a call cover one of the origins that can be drawn in it, whatever property J of the call these have *)
Lemma new_rules_keen : forall (L : learner) rngof (D : discovery L) o (C : composition L) (G : logger L) p os X y d (e : est (recorded_d D) (recorded_c C) G) r e' (J : dcall L -> row -> Prop),
  seeks L rngof D o -> table d X y -> ready D C G p X y -> fit p os false X y e = (r, e') ->
  (forall call m g xs g', Forall (fitted_on X y) (d_pool call) -> origins o (discovery_env X y (d_pool call) (d_elite call)) m g = (Ok xs, g') -> Forall (J call) xs) ->
  forall call new, In call (dcalls e') -> d_out call = Ok new -> Forall (fun r => exists x, J call x /\ covers (cond r) x) new.
Proof.
  intros L rngof D o C G p os X y d e r e' J HS HT HR HE HJ.
  destruct HR as (HG & HSd & [d0 Hd0] & [c0 Hc0] & [l Hl]).
  assert (HEB : exists bs, estimate_bounds X = Ok bs /\ proper_space bs /\ length bs = d).
  { destruct HG as [(dd & _ & HX0 & _) _]. destruct HT as [HX _]. destruct X as [|x0 X0]; [congruence|]. inversion HX; subst.
    destruct (estimate_bounds_correct (x0 :: X0) x0 X0 eq_refl) as (bs & E & E1 & E2 & _); [assumption|]. exists bs. auto. }
  destruct HEB as (bs & EB & HP & HLb).
  pose (RD := fun call : dcall L => forall new, d_out call = Ok new -> Forall (fun r => exists x, J call x /\ covers (cond r) x) new).
  assert (HGood : forall (pool : list (rule L)) el (new : list (rule L)) J0, Forall (keen (discovery_env X y pool el) d bs J0) new -> Forall (fitted_on X y) new).
  { intros pool el new J0. apply Forall_impl. intros r0 ((H & _) & _). exact H. }
  assert (HCall : called L D C G RD (fun _ => True) (snd (fit p os false X y e))).
  2:{ rewrite HE in HCall. cbn [snd] in HCall. destruct HCall as [H _]. rewrite Forall_forall in H. intros call new HI HO. exact (H call HI new HO). }
  destruct HS as [c mr Ht Hi Hg|c mr Ht Hi].
  - pose (Pr := fun (pool : list (rule L)) (s : dst (es_discovery L rngof c (GivenCombined mr None))) (_ : cst C) => es_d s = set_constraint (CombinedConstraint mr bs) (es_d c) /\ es_mut s = es_mut c /\ Forall (fitted_on X y) pool).
    apply (fit_called L (es_discovery L rngof c (GivenCombined mr None)) C G p X y Pr Pr RD (fun _ => True)) with d0 c0 l; auto.
    + intros s c1 H0 _. cbn [dnew es_discovery] in H0. destruct (es_new c) as [c2|x] eqn:E1; [|discriminate]. apply es_new_same in E1. subst c2. cbn [rbind] in H0.
      unfold init_bounds in H0. rewrite EB in H0. cbn [rbind] in H0. injection H0 as <-. unfold Pr. cbn [es_d es_mut]. auto.
    + intros pool s c1 el n sd r0 k s' (P1 & P2 & P3) _ _ HRn. cbn [drun es_discovery] in HRn. injection HRn as HRn _ <-.
      set (call := mkDcall pool (option_map (with_pool pool) el) n sd r0).
      assert (HK : forall new, r0 = Ok new -> Forall (keen (discovery_env X y pool (option_map (with_pool pool) el)) d bs (J call)) new).
      { intros new ->. destruct (es_optimize s _ n _ _) as [r1 g1] eqn:E. cbn [fst] in HRn. subst r1.
        revert E. apply es_keen with mr; auto; try (rewrite P1; cbn; auto; fail); [rewrite P2; exact Hg|].
        intros g2 xs g3 HO. rewrite P1 in HO. cbn [d_origin set_constraint] in HO. exact (HJ call n g2 xs g3 P3 HO). }
      split; [|intros new E; split; [exact P1|split; [exact P2|apply Forall_app; split; [exact P3|exact (HGood _ _ _ _ (HK new E))]]]].
      intros new E. generalize (HK new E). apply Forall_impl. intros r2 (_ & _ & x & A & _ & B). exists x. auto.
  - pose (Pr := fun (pool : list (rule L)) (s : dst (rs_discovery L rngof c (GivenCombined mr None))) (_ : cst C) => rs_d s = set_constraint (CombinedConstraint mr bs) (rs_d c) /\ Forall (fitted_on X y) pool).
    apply (fit_called L (rs_discovery L rngof c (GivenCombined mr None)) C G p X y Pr Pr RD (fun _ => True)) with d0 c0 l; auto.
    + intros s c1 H0 _. cbn [dnew rs_discovery] in H0. unfold init_bounds in H0. rewrite EB in H0. cbn [rbind] in H0. injection H0 as <-. unfold Pr. cbn [rs_d]. auto.
    + intros pool s c1 el n sd r0 k s' (P1 & P3) _ _ HRn. cbn [drun rs_discovery] in HRn. injection HRn as HRn _ <-.
      set (call := mkDcall pool (option_map (with_pool pool) el) n sd r0).
      assert (HK : forall new, r0 = Ok new -> Forall (keen (discovery_env X y pool (option_map (with_pool pool) el)) d bs (J call)) new).
      { intros new ->. destruct (rs_optimize s _ n _) as [r1 g1] eqn:E. cbn [fst] in HRn. subst r1.
        revert E. apply rs_keen with mr; auto; try (rewrite P1; cbn; auto; fail).
        intros m g2 xs g3 HO. rewrite P1 in HO. cbn [d_origin set_constraint] in HO. exact (HJ call m g2 xs g3 P3 HO). }
      split; [|intros new E; split; [exact P1|apply Forall_app; split; [exact P3|exact (HGood _ _ _ _ (HK new E))]]].
      intros new E. generalize (HK new E). apply Forall_impl. intros r2 (_ & _ & x & A & _ & B). exists x. auto.
Qed.

Lemma guiding_considered {L} X y use (call : dcall L) rs : guiding use call rs -> considered (discovery_env X y (d_pool call) (d_elite call)) use rs.
Proof. unfold guiding, considered, discovery_env. cbn [delite dpool]. destruct (d_elite call); cbn [option_map]; auto. Qed.
Lemma cover_missed : forall (L : learner) rngof (D : discovery L) use (C : composition L) (G : logger L) p os X y d (e : est (recorded_d D) (recorded_c C) G) r e' call rs new,
  seeks L rngof D (Matching use) -> table d X y -> ready D C G p X y -> fit p os false X y e = (r, e') -> In call (dcalls e') -> d_out call = Ok new ->
  guiding use call rs -> (exists x, In x X /\ missing rs x) -> Forall (fun r => exists x, In x X /\ missing rs x /\ covers (cond r) x) new.
Proof.
  intros L rngof D use C G p os X y d e r e' call rs new HS HT HR HE HI HO HG (x0 & Hx0 & r0 & Hr0 & Hc0).
  assert (H : Forall (fun r => exists x, (forall rs, guiding use call rs -> (exists x r, In x X /\ In r rs /\ ~ covers (cond r) x) -> In x X /\ missing rs x) /\ covers (cond r) x) new).
  { refine (new_rules_keen L rngof D (Matching use) C G p os X y d e r e' (fun call x => forall rs, guiding use call rs -> (exists x r, In x X /\ In r rs /\ ~ covers (cond r) x) -> In x X /\ missing rs x) HS HT HR HE _ call new HI HO).
    intros c m g xs g' HF HX. apply Forall_forall. intros x Hx rs1 HG1 HE1.
    pose proof (matching_never_covered L (discovery_env X y (d_pool c) (d_elite c)) use rs1 m g xs g' HF (guiding_considered X y use c rs1 HG1) HE1 HX) as HN.
    rewrite Forall_forall in HN. exact (HN x Hx). }
  revert H. apply Forall_impl. intros r1 (x & Hx & Hc). destruct (Hx rs HG) as [A B]; [eauto|]. exists x. auto.
Qed.

(* ----- what the model gets wrong ----- *)
From Verif Require Import S_Predicting.
Lemma map2_len {A B E} (f : A -> B -> E) a : forall b, length (map2 f a b) = Nat.min (length a) (length b).
Proof. induction a as [|x a IH]; intros [|z b]; cbn; auto. Qed.
Lemma fill_len flags : forall vals, length (fill flags vals) = length flags.
Proof. induction flags as [|[|] fl IH]; intros [|v vs]; cbn; auto. Qed.
Lemma scatter_len n flags vals row : scatter n flags vals = Ok row -> length row = n.
Proof.
  unfold scatter. destruct (Nat.eqb_spec (length flags) n) as [E|E]; cbn [negb]; [|discriminate]. destruct (Nat.eqb _ _); [injection 1 as <-; rewrite fill_len; exact E|].
  destruct vals as [|v [|? ?]]; try discriminate. injection 1 as <-. rewrite fill_len. exact E.
Qed.
Lemma vsum_len n rows : Forall (fun r => length r = n) rows -> length (vsum n rows) = n.
Proof. unfold vsum. induction 1 as [|r rows H HF IH]; cbn [fold_right]; [apply repeat_length|]. rewrite map2_len, IH, H. apply Nat.min_id. Qed.
Lemma rmap_forall {A B} (f : A -> res B) (P : B -> Prop) l : (forall a b, f a = Ok b -> P b) -> forall l', rmap f l = Ok l' -> Forall P l'.
Proof.
  intros HF. induction l as [|a l IH]; intros l' H; cbn [rmap rbind] in H; [injection H as <-; constructor|].
  destruct (f a) as [b|] eqn:E; [|discriminate]. cbn [rbind] in H. destruct (rmap f l) as [bs|] eqn:E2; [|discriminate]. injection H as <-. constructor; eauto.
Qed.
Section Steady.
Context {L : learner}.
Implicit Types rs : list (rule L).
Lemma mix_len mx X rs cache out : mix L mx X rs cache = Ok out -> length out = length X.
Proof.
  unfold mix. destruct (rmap (local_pred L X cache) rs) as [lps|] eqn:E1; [|discriminate]. cbn [rbind]. destruct (rmap (tau L mx (row_len X)) rs) as [ts|]; [|discriminate]. cbn [rbind].
  destruct (rmap _ (combine (map fst lps) ts)) as [lt|] eqn:E3; [|discriminate]. cbn [rbind]. injection 1 as <-.
  assert (F1 : Forall (fun lp : list bool * list Q => length (snd lp) = length X) lps).
  { revert E1. apply rmap_forall. intros r lp H. unfold local_pred in H. destruct cache.
    - destruct (get_att L r) as [a|]; [|discriminate]. cbn [rbind] in H. destruct (scatter _ _ _) as [row|] eqn:ES; [|discriminate]. injection H as <-. exact (scatter_len _ _ _ _ ES).
    - destruct (match_call (cond r) X) as [ms|]; [|discriminate]. cbn [rbind] in H. destruct (existsb _ ms); [|injection H as <-; apply repeat_length].
      destruct (rule_predict L r (compress X ms)) as [q|]; [|discriminate]. cbn [rbind] in H. destruct (scatter _ _ _) as [row|] eqn:ES; [|discriminate]. injection H as <-. exact (scatter_len _ _ _ _ ES). }
  assert (F2 : Forall (fun r => length r = length X) lt).
  { revert E3. apply rmap_forall. intros a b. apply scatter_len. }
  rewrite map2_len, map_length, (vsum_len _ lt F2). rewrite vsum_len; [apply Nat.min_id|]. clear - F1. revert ts. induction F1 as [|lp lps H HF IH]; intros [|t ts]; cbn; constructor; auto.
  rewrite map_length. exact H.
Qed.
Lemma steady_filter_same f rs g g1 : steady f -> apply_filter L f rs g = (fst (apply_filter L f rs g1), g).
Proof. destruct f; cbn [steady]; try contradiction; intros _; [reflexivity|]. cbn. reflexivity. Qed.
Lemma steady_predict mx bits pool X g g1 : steady (mfilter mx) -> sol_predict L mx bits pool X false g = (fst (sol_predict L mx bits pool X false g1), g).
Proof.
  intros HS. unfold sol_predict. destruct (subpopulation L bits pool) as [rs|x]; [|reflexivity]. unfold mixing_call. destruct rs as [|r rs]; [reflexivity|].
  rewrite (steady_filter_same _ (r :: rs) g g1 HS). pose proof (steady_filter_same _ (r :: rs) g1 g1 HS) as E. destruct (apply_filter L (mfilter mx) (r :: rs) g1) as [[rs'|x] g2]; reflexivity.
Qed.
Lemma predict_len mx bits pool X g pr g' : sol_predict L mx bits pool X false g = (Ok pr, g') -> length pr = length X.
Proof.
  unfold sol_predict. destruct (subpopulation L bits pool) as [rs|x]; [|discriminate]. unfold mixing_call. destruct rs as [|r rs]; [injection 1 as <- _; apply repeat_length|].
  destruct (apply_filter L (mfilter mx) (r :: rs) g) as [[rs'|x] g2]; [|discriminate]. injection 1 as H _. exact (mix_len _ _ _ _ _ H).
Qed.
End Steady.
Lemma cover_wrong : forall (L : learner) rngof (D : discovery L) use (C : composition L) (G : logger L) p os X y d (e : est (recorded_d D) (recorded_c C) G) r e' call b rs new pr g g',
  seeks L rngof D (SquaredError use) -> table d X y -> ready D C G p X y -> fit p os false X y e = (r, e') -> In call (dcalls e') -> d_out call = Ok new ->
  d_elite call = Some b -> steady (mfilter (emix b)) -> guiding use call rs -> rs <> [] ->
  sol_predict L (emix b) (if use then ebits b else repeat true (length (d_pool call))) (d_pool call) X false g = (Ok pr, g') ->
  (exists x, mispredicted X y pr x) -> Forall (fun r => exists x, mispredicted X y pr x /\ covers (cond r) x) new.
Proof.
  intros L rngof D use C G p os X y d e r e' call b rs new pr g g' HS HT HR HE HI HO HB HSt HG HNe HP HM.
  refine (Forall_impl _ _ (new_rules_keen L rngof D (SquaredError use) C G p os X y d e r e' (fun c x => c = call -> mispredicted X y pr x) HS HT HR HE _ call new HI HO)).
  - intros r1 (x & Hx & Hc). exists x. auto.
  - intros c m g1 xs g2 _ HX. apply Forall_forall. intros x Hx ->. rewrite HB in HX.
    assert (HC : considered (discovery_env X y (d_pool call) (Some b)) use rs) by (rewrite <- HB; apply guiding_considered; exact HG).
    assert (HP1 : sol_predict L (emix b) (if use then ebits b else repeat true (length (d_pool call))) (d_pool call) X false g1 = (Ok pr, g1)) by (rewrite (steady_predict _ _ _ _ _ g HSt), HP; reflexivity).
    destruct (squared_distribution L (discovery_env X y (d_pool call) (Some b)) d HT use rs (ebits b) m g1 pr g1 HC HNe eq_refl HP1 (predict_len _ _ _ _ _ _ _ HP)) as (w & total & HT0 & HLw & _ & HW & HOr).
    { destruct HM as (x1 & i & a & b1 & _ & A1 & A2 & A3). exists i, a, b1. auto. }
    rewrite HOr in HX. apply choices_p_ok in HX as (_ & _ & _ & _ & HX). rewrite Forall_forall in HX. destruct (HX x Hx) as (i & q & Hi & Hq & Hpos).
    change (nth_error X i = Some x) in Hi. assert (HLi : (i < length X)%nat) by (apply (proj1 (nth_error_Some X i)); rewrite Hi; discriminate).
    destruct (nth_error pr i) as [a|] eqn:EA; [|apply nth_error_None in EA; rewrite (predict_len _ _ _ _ _ _ _ HP) in EA; lia].
    destruct (nth_error y i) as [b1|] eqn:EBy; [|apply nth_error_None in EBy; destruct HT as [_ HY]; rewrite HY in EBy; lia].
    destruct (HW i a b1 EA EBy) as (q1 & Hq1 & HQ). assert (q1 = q) by congruence. subst q1. exists i, a, b1. split; [exact Hi|]. split; [exact EA|]. split; [exact EBy|].
    intros E. assert (E2 : q * total == 0) by (rewrite HQ, E; ring). apply Qmult_integral in E2 as [E2|E2]; lra.
Qed.
