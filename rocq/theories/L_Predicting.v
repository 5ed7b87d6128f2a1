(* Lemmas for predictions of single samples and whole batches. *)
From Coq Require Import Lia.
From Verif Require Import PyNum PyList PyMon PyRng L_Num L_List L_Rng M_Matching S_Matching L_Matching M_Rule S_Rule M_RuleGen M_Mixing S_Mixing L_Mixing L_MixingProps M_Discovery S_Discovery
  M_Solution S_Solution M_Composition S_Composition M_GA S_Optimizers M_Fit S_Fit L_Fit L_FitProps M_Shipped S_Shipped L_ShippedFit S_Predicting.

Section Batch.
Variable L : learner.
Lemma each_alone mx rs g rs' g' dim :
  rs <> [] -> apply_filter L (mfilter mx) rs g = (Ok rs', g') -> Forall (S_Mixing.ready L dim) rs' ->
  exists f, forall X, width_of dim X -> mixing_call L mx X rs false g = (Ok (map f X), g').
Proof.
  intros HN HF HR. exists (predict_one L mx dim rs'). intros X HX. unfold mixing_call. destruct rs as [|r rs]; [congruence|].
  rewrite HF. f_equal. apply mix_fresh; assumption.
Qed.
(* a filter without a generator delivers the same rules whatever the generator *)
Lemma steady_filter f rs dim : steady f -> Forall (S_Mixing.ready L dim) rs ->
  exists rs', forall g, apply_filter L f rs g = (Ok rs', g).
Proof.
  intros HS HR. destruct f; try contradiction.
  - exists rs. reflexivity.
  - destruct (rmap_fitness_ok L rs) as (l & HL).
    { eapply Forall_impl; [|exact HR]. intros r (_ & (a & Ha & _) & _). congruence. }
    eexists. intros g. cbn [apply_filter]. rewrite HL. cbn [rbind]. reflexivity.
Qed.
Lemma map_const0 (X : matrix) : repeat 0 (length X) = map (fun _ => 0) X.
Proof. induction X as [|x X IH]; cbn; congruence. Qed.
Lemma repeatable mx rs dim : steady (mfilter mx) -> Forall (S_Mixing.ready L dim) rs ->
  exists f, forall X g, width_of dim X -> mixing_call L mx X rs false g = (Ok (map f X), g).
Proof.
  intros HS HR. destruct rs as [|r rs].
  - exists (fun _ => 0). intros X g _. cbn. rewrite map_const0. reflexivity.
  - destruct (steady_filter _ _ _ HS HR) as (rs' & HF).
    exists (predict_one L mx dim rs'). intros X g HX. unfold mixing_call. rewrite HF. f_equal. apply mix_fresh; [exact HX|].
    pose proof (filter_incl L _ _ _ _ _ (HF g)) as HI. rewrite Forall_forall in HR |- *. auto.
Qed.
(* numpy's broadcasting: neither equal widths nor a single column *)
Lemma refused_row m x : length (bnd m) <> length x -> length (bnd m) <> 1%nat -> length x <> 1%nat -> bcast_row (bnd m) x = None.
Proof.
  intros H1 H2 H3. unfold bcast_row. destruct (Nat.eqb_spec (length (bnd m)) (length x)); [contradiction|].
  destruct (bnd m) as [|b [|b' bs]]; destruct x as [|a [|a' x]]; cbn in *; try reflexivity; try lia; congruence.
Qed.
Lemma refused_match m X d : width_of d X -> X <> [] -> length (bnd m) <> d -> length (bnd m) <> 1%nat -> d <> 1%nat -> match_call m X = Raise ValueError.
Proof.
  intros HX HN H1 H2 H3. destruct X as [|x X]; [congruence|]. inversion HX; subst. unfold match_call. cbn [rmap]. rewrite refused_row; auto.
Qed.
Lemma refused_mix mx X rs d : width_of d X -> X <> [] -> rs <> [] -> d <> 1%nat ->
  Forall (fun r => length (bnd (cond r)) <> d /\ length (bnd (cond r)) <> 1%nat) rs -> mix L mx X rs false = Raise ValueError.
Proof.
  intros HX HN HR H1 HF. destruct rs as [|r rs]; [congruence|]. inversion HF as [|? ? [H2 H3] _]; subst. unfold mix. cbn [rmap]. unfold local_pred at 1.
  rewrite (refused_match _ _ d); auto.
Qed.
Lemma refused_call mx X rs g rs' g' d : width_of d X -> X <> [] -> d <> 1%nat -> rs <> [] ->
  apply_filter L (mfilter mx) rs g = (Ok rs', g') -> rs' <> [] ->
  Forall (fun r => length (bnd (cond r)) <> d /\ length (bnd (cond r)) <> 1%nat) rs -> mixing_call L mx X rs false g = (Raise ValueError, g').
Proof.
  intros HX HN H1 HR HF HR' HD. unfold mixing_call. destruct rs as [|r rs]; [congruence|]. rewrite HF. f_equal. apply (refused_mix mx X rs' d); auto.
  pose proof (filter_incl L _ _ _ _ _ HF) as HI. rewrite Forall_forall in HD |- *. auto.
Qed.
Lemma last_n_nil {A} n (l : list A) : last_n n l = [] -> l = [].
Proof.
  unfold last_n. destruct n as [|n]; [auto|]. cbn [Nat.eqb]. intros H. assert (HL : length (skipn (length l - S n) l) = 0%nat) by (rewrite H; reflexivity).
  rewrite skipn_length in HL. destruct l; [reflexivity|]. cbn [length] in HL. lia.
Qed.
Lemma steady_nonempty f rs g rs' g' : steady f -> rs <> [] -> apply_filter L f rs g = (Ok rs', g') -> rs' <> [].
Proof.
  intros HS HN H. destruct f; try contradiction; cbn in H.
  - congruence.
  - destruct (rmap (fitness_of L) rs); [|discriminate]. cbn [rbind] in H. injection H as <- _. intros HE. apply last_n_nil in HE.
    apply HN. apply length_zero_iff_nil. rewrite <- (sort_length (fun a b => nlt (fit_or_nan L a) (fit_or_nan L b)) rs), HE. reflexivity.
Qed.
End Batch.

(* ----- a fit call that returns leaves a fitted estimator ----- *)
Section Fitted.
Context {L : learner} {D : discovery L} {C : composition L} {G : logger L}.
Lemma catch_fitted (m : St (est D C G) unit) e e' : catch m e = (Ok true, e') -> M_Fit.is_fitted e' = true.
Proof. unfold catch. destruct (m e) as [[u|x] e1]; [discriminate|]. destruct (python_exn x); [|discriminate]. intros H. injection H as <-. reflexivity. Qed.
Lemma loop_fitted p X y steps : forall e e' : est D C G, main_loop p X y steps e = (Ok true, e') -> M_Fit.is_fitted e' = true.
Proof.
  induction steps as [|i steps IH]; intros e e' H; [discriminate|]. cbn [main_loop] in H. unfold bind at 1, assign at 1 in H.
  unfold bind at 1 in H. unfold discover_safely in H.
  match type of H with context [catch ?m ?s] => destruct (catch m s) as [[[|]|x] e1] eqn:E1 end; try discriminate.
  { injection H as <-. exact (catch_fitted _ _ _ E1). }
  unfold bind at 1 in H. unfold compose_safely in H.
  match type of H with context [catch ?m ?s] => destruct (catch m s) as [[[|]|x] e2] eqn:E2 end; try discriminate.
  { injection H as <-. exact (catch_fitted _ _ _ E2). }
  unfold bind at 1, get at 1 in H. unfold bind at 1, lift at 1 in H. destruct (the_logs e2); [|discriminate].
  unfold bind at 1, lift at 1 in H. destruct (literation G X y _ _ _ _ _); [|discriminate]. unfold bind at 1, assign at 1 in H. unfold bind at 1 in H.
  destruct (check_early_stopping p _) as [[[|]|x] e3]; try discriminate. exact (IH _ _ H).
Qed.
Lemma cleanup_fitted (e e' : est D C G) r : cleanup e = (r, e') -> M_Fit.is_fitted e' = M_Fit.is_fitted e.
Proof.
  unfold cleanup, bind, get, lift, assign. destruct (elitist e) as [[|b]|]; cbn [of_option]; [| |intros H; injection H as _ <-; reflexivity].
  - cbn. unfold the_disc, the_compo. cbn. destruct (disc e); cbn; [|intros H; injection H as _ <-; reflexivity]. destruct (compo e); cbn; intros H; injection H as _ <-; reflexivity.
  - destruct (subpopulation L (ebits b) (M_Fit.epool b)); cbn; [|intros H; injection H as _ <-; reflexivity].
    unfold the_disc, the_compo. cbn. destruct (disc e); cbn; [|intros H; injection H as _ <-; reflexivity]. destruct (compo e); cbn; intros H; injection H as _ <-; reflexivity.
Qed.
Lemma finish_fitted clean X y (e e' : est D C G) : finish clean X y e = (Ok tt, e') -> M_Fit.is_fitted e' = true.
Proof.
  intros H. unfold finish in H. unfold bind at 1, get at 1 in H. unfold bind at 1, lift at 1 in H. destruct (best e) as [o|]; [|discriminate].
  unfold bind at 1, lift at 1 in H. destruct o as [b|]; [|discriminate]. cbn [of_option] in H. unfold bind at 1, assign at 1 in H. unfold bind at 1, assign at 1 in H.
  unfold bind at 1, get at 1 in H. unfold bind at 1, lift at 1 in H. match type of H with context [the_logs ?s] => destruct (the_logs s); [|discriminate] end.
  unfold bind at 1, lift at 1 in H. destruct (lfinal G X y _ _ _); [|discriminate]. unfold bind at 1, assign at 1 in H. destruct clean.
  - apply cleanup_fitted in H. rewrite H. reflexivity.
  - injection H as <-. reflexivity.
Qed.
Lemma fit_fitted p os clean X y (e e' : est D C G) : fit p os clean X y e = (Ok tt, e') -> M_Fit.is_fitted e' = true.
Proof.
  intros H. unfold fit in H. unfold bind at 1 in H. destruct (prepare p os X y e) as [[[]|x] e1]; [|discriminate].
  assert (HA : forall e2, bind (main_loop p X y (seq 0 (n_iter p))) (fun failed => if failed then ret tt else finish clean X y) e2 = (Ok tt, e') -> M_Fit.is_fitted e' = true).
  { intros e2 E. unfold bind at 1 in E. destruct (main_loop p X y (seq 0 (n_iter p)) e2) as [[[|]|x] e3] eqn:EL; [| |discriminate].
    - injection E as <-. exact (loop_fitted _ _ _ _ _ _ EL).
    - exact (finish_fitted _ _ _ _ _ E). }
  unfold bind at 1 in H. destruct (Nat.ltb 0 (n_initial p)); [|exact (HA _ H)].
  unfold discover_safely in H. match type of H with context [catch ?m ?s] => destruct (catch m s) as [[[|]|x] e2] eqn:E1 end; try discriminate.
  - injection H as <-. exact (catch_fitted _ _ _ E1).
  - exact (HA _ H).
Qed.
Lemma predict_zeros (e' : est D C G) X' g : M_Fit.is_fitted e' = true -> is_error e' = true -> good_table X' -> predict e' X' g = (Ok (map (fun _ => 0) X'), g).
Proof.
  intros H1 H2 H3. apply check_X_ok in H3. unfold predict. rewrite H1. cbn [negb]. unfold bind, lift. rewrite H3, H2. unfold ret. rewrite map_const0. reflexivity.
Qed.
Lemma predict_elite (e' : est D C G) b X' g : M_Fit.is_fitted e' = true -> is_error e' = false -> elitist e' = Some (Learned b) -> good_table X' ->
  predict e' X' g = sol_predict L (M_Fit.emix b) (ebits b) (M_Fit.epool b) X' false g.
Proof.
  intros H1 H2 H3 H4. apply check_X_ok in H4. unfold predict. rewrite H1. cbn [negb]. unfold bind, lift. rewrite H4, H2, H3. reflexivity.
Qed.
End Fitted.

(* ----- the estimator ----- *)
Section Estimator.
Context {L : learner}.
Lemma learned_ready d X y (pool : list (rule L)) a : table d X y -> Forall (fun r => fitted_on X y r /\ matches_some X r /\ passes a y r) pool ->
  Forall (S_Mixing.ready L d) pool.
Proof.
  intros [HT _] H. eapply Forall_impl; [|exact H]. intros r (H1 & H2 & _).
  assert (HD : length (bnd (cond r)) = d).
  { destruct H2 as (x & Hx & Hc). apply Forall2_len in Hc. rewrite Hc. rewrite Forall_forall in HT. auto. }
  rewrite <- HD. apply (truthful_ready L (cond r) X y); auto. rewrite HD. exact HT.
Qed.
Lemma chosen_ready d (pool : list (rule L)) bits : Forall (S_Mixing.ready L d) pool -> Forall (S_Mixing.ready L d) (compress pool bits).
Proof. rewrite !Forall_forall. intros H r Hr. apply H. eapply compress_In; exact Hr. Qed.
Lemma sol_call mx bits (pool : list (rule L)) X g : length bits = length pool -> sol_predict L mx bits pool X false g = mixing_call L mx X (compress pool bits) false g.
Proof. intros H. unfold sol_predict, subpopulation. rewrite H, Nat.eqb_refl. reflexivity. Qed.

Lemma estimator_repeatable rngof (D : discovery L) k a K (O : optimizer K) i cc mix f (G : logger L) p os X y d (e e' : est D (shipped_composition L rngof O i cc mix f) G) :
  library_discovery L rngof D k a -> shipped O i -> table d X y -> X <> [] -> d <> 0%nat -> usable a -> given_dim d k -> (forall m x, exists q, rfitness L m x = Fin q) ->
  steady (mfilter mix) -> fit p os false X y e = (Ok tt, e') ->
  exists h, forall X' g, width_of d X' -> X' <> [] -> predict e' X' g = (Ok (map h X'), g).
Proof.
  intros HL HS HT HX Hd HU HG HF HM H. pose proof (fit_fitted _ _ _ _ _ _ _ H) as Hf. destruct (is_error e') eqn:EE.
  - exists (fun _ => 0). intros X' g HW HN. rewrite (predict_zeros e' X' g Hf EE); [reflexivity|]. exists d. auto.
  - destruct (library_sound L rngof D k a K O i cc mix f G p os X y d e e' HL HS HT HX HU HG HF H EE) as (HP & b & Hb & Hp & Hm & Hl & _).
    pose proof (chosen_ready d _ (ebits b) (learned_ready d X y _ a HT HP)) as HR.
    destruct (repeatable L mix _ d HM HR) as (h & Hh). exists h. intros X' g HW HN.
    rewrite (predict_elite e' b X' g Hf EE Hb); [|exists d; auto]. rewrite Hp, Hm, (sol_call mix _ _ X' g Hl). auto.
Qed.
Lemma estimator_refuses rngof (D : discovery L) k a K (O : optimizer K) i cc mix f (G : logger L) p os X y d (e e' : est D (shipped_composition L rngof O i cc mix f) G) b :
  library_discovery L rngof D k a -> shipped O i -> table d X y -> X <> [] -> d <> 0%nat -> usable a -> given_dim d k -> (forall m x, exists q, rfitness L m x = Fin q) ->
  steady (mfilter mix) -> fit p os false X y e = (Ok tt, e') -> is_error e' = false -> elitist e' = Some (Learned b) -> In true (ebits b) ->
  forall d' X' g, width_of d' X' -> d' <> d -> d <> 1%nat -> d' <> 1%nat -> predict e' X' g = (Raise ValueError, g).
Proof.
  intros HL HS HT HX Hd HU HG HF HM H EE Hb HI d' X' g HW H1 H2 H3. pose proof (fit_fitted _ _ _ _ _ _ _ H) as Hf.
  destruct (library_sound L rngof D k a K O i cc mix f G p os X y d e e' HL HS HT HX HU HG HF H EE) as (HP & b' & Hb' & Hp & Hm & Hl & _).
  rewrite Hb in Hb'. injection Hb' as <-. pose proof (chosen_ready d _ (ebits b) (learned_ready d X y _ a HT HP)) as HR.
  destruct (check_X X') as [[]|x] eqn:EC.
  - assert (HN : X' <> []) by (intros ->; discriminate). apply check_X_ok in EC. rewrite (predict_elite e' b X' g Hf EE Hb EC).
    rewrite Hp, Hm, (sol_call mix _ _ X' g Hl). destruct (steady_filter L _ _ _ HM HR) as (rs' & Hrs).
    assert (HC : compress (pool e') (ebits b) <> []).
    { intros E. assert (HZ : count_true (ebits b) = 0%nat) by (rewrite (count_true_compress (pool e')), E; auto).
      revert HI HZ. clear. intros HI. induction (ebits b) as [|c l IH]; [contradiction|]. destruct HI as [->|HI]; [discriminate|]. destruct c; [discriminate|]. exact (IH HI). }
    apply (refused_call L mix X' _ g rs' g d'); auto.
    + apply (steady_nonempty L _ _ g _ g HM HC (Hrs g)).
    + eapply Forall_impl; [|exact HR]. intros r (HD & _). rewrite HD. auto.
  - assert (x = ValueError).
    { revert EC. unfold check_X. destruct X' as [|x0 X']; [congruence|]. destruct (_ || _); congruence. }
    subst x. unfold predict. rewrite Hf. cbn [negb]. unfold bind, lift. rewrite EC. reflexivity.
Qed.
End Estimator.
