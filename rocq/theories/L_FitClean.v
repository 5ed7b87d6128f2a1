(* Cleanup, and calls of fit that are refused. *)
From Coq Require Import Lia.
From Verif Require Import PyNum PyList PyMon PyRng L_Num L_List M_Matching M_Rule M_RuleGen M_Mixing M_Fit S_Fit L_Fit L_FitProps L_FitSeeds L_RuleProps L_DiscoveryEx L_GenomeProps L_FitEx.

Lemma all_selected (L : learner) (rs : list (rule L)) : subpopulation L (repeat true (length rs)) rs = Ok rs.
Proof.
  unfold subpopulation. rewrite repeat_length, Nat.eqb_refl. cbn [assert_ rbind]. f_equal. induction rs as [|r rs IH]; [reflexivity|].
  cbn [repeat length compress] in *. congruence.
Qed.

Section Clean.
Variable L : learner.
Variables (D : discovery L) (C : composition L) (G : logger L).
Implicit Types e : est D C G.
(* what cleanup leaves of pool and elitist *)
Definition kept (m : option (model L)) (p : list (rule L)) : option (model L) * list (rule L) :=
  match m with
  | Some Placeholder => (m, [])
  | Some (Learned b) => match subpopulation L (ebits b) (epool b) with
                        | Ok sub => (Some (Learned (mkElite (repeat true (length sub)) sub (emix b) (eatt b))), sub)
                        | Raise _ => (m, p) end
  | None => (m, p)
  end.
Lemma cleanup_result e : exists r d c, cleanup e =
  (r, set_comps d c (set_pool (snd (kept (elitist e) (pool e))) (set_elitist (fst (kept (elitist e) (pool e))) e))) /\
  (r = Ok tt -> disc e <> None /\ compo e <> None /\ d = None /\ c = None).
Proof.
  destruct e as [st co pr er fi el po ds cs di cp lo mx]. unfold cleanup, bind, get, lift, assign. cbn [elitist pool disc compo].
  destruct el as [[|b]|]; cbn [of_option kept].
  - unfold the_disc, the_compo. cbn. destruct di as [d|]; cbn; [|eexists (Raise AttributeError), None, cp; split; [reflexivity|discriminate]].
    destruct cp as [c|]; cbn; [|eexists (Raise AttributeError), None, None; split; [reflexivity|discriminate]].
    eexists (Ok tt), None, None. split; [reflexivity|]. intros _. repeat split; discriminate.
  - destruct (subpopulation L (ebits b) (epool b)) as [sub|x]; cbn [fst snd].
    + unfold the_disc, the_compo. cbn. destruct di as [d|]; cbn; [|eexists (Raise AttributeError), None, cp; split; [reflexivity|discriminate]].
      destruct cp as [c|]; cbn; [|eexists (Raise AttributeError), None, None; split; [reflexivity|discriminate]].
      eexists (Ok tt), None, None. split; [reflexivity|]. intros _. repeat split; discriminate.
    + eexists (Raise x), di, cp. split; [reflexivity|discriminate].
  - eexists (Raise AttributeError), di, cp. split; [reflexivity|discriminate].
Qed.
Lemma cleanup_predicts e r e' X g : cleanup e = (r, e') -> predict e' X g = predict e X g.
Proof.
  intros H. destruct (cleanup_result e) as (r0 & d & c & HE & _). rewrite HE in H. injection H as _ <-. unfold predict. cbn [is_fitted is_error elitist set_comps set_pool set_elitist].
  destruct (negb (is_fitted e)); auto. unfold bind. destruct (lift (check_X X) g) as [[[]|x] g']; auto. destruct (is_error e); auto.
  destruct (elitist e) as [[|b]|]; cbn [kept fst]; auto. destruct (subpopulation L (ebits b) (epool b)) as [sub|x] eqn:ES; cbn [fst]; auto. cbn [emix ebits epool].
  unfold sol_predict. rewrite all_selected, ES. reflexivity.
Qed.
Lemma cleanup_pool e r e' : cleanup e = (r, e') -> r = Ok tt ->
  disc e' = None /\ compo e' = None /\
  (forall b, elitist e = Some (Learned b) -> exists sub, subpopulation L (ebits b) (epool b) = Ok sub /\ pool e' = sub /\ incl (pool e') (epool b) /\
     elitist e' = Some (Learned (mkElite (repeat true (length sub)) sub (emix b) (eatt b)))).
Proof.
  intros H ->. destruct (cleanup_result e) as (r0 & d & c & HE & HR). rewrite HE in H. injection H as -> <-. destruct (HR eq_refl) as (_ & _ & -> & ->).
  split; [reflexivity|]. split; [reflexivity|]. intros b HB. cbn [pool elitist set_comps set_pool set_elitist]. rewrite HB. cbn [kept].
  assert (HS : exists sub, subpopulation L (ebits b) (epool b) = Ok sub).
  { revert HE. unfold cleanup, bind, get, lift, assign. rewrite HB. cbn [of_option]. destruct (subpopulation L (ebits b) (epool b)) as [sub|x]; [eauto|discriminate]. }
  destruct HS as [sub HS]. rewrite HS. cbn [fst snd]. exists sub. split; auto. split; auto. split; [|reflexivity].
  revert HS. unfold subpopulation. destruct (assert_ _); [|discriminate]. cbn. intros HS. injection HS as <-. intros q HQ. eapply compress_In; exact HQ.
Qed.
Lemma cleanup_twice e r1 e1 r2 e2 : cleanup e = (r1, e1) -> r1 = Ok tt -> cleanup e1 = (r2, e2) ->
  r2 = Raise AttributeError /\ pool e2 = pool e1 /\ forall X g, predict e2 X g = predict e X g.
Proof.
  intros H1 HR H2. split.
  - destruct (cleanup_pool _ _ _ H1 HR) as (HD & HC & _). destruct (cleanup_result e1) as (r0 & d & c & HE & HR'). rewrite HE in H2. injection H2 as <- _.
    revert HE. unfold cleanup, bind, get, lift, assign. subst r1. 
    assert (HK : elitist e1 = fst (kept (elitist e) (pool e))) by (destruct (cleanup_result e) as (? & ? & ? & HE & _); rewrite HE in H1; injection H1 as _ <-; reflexivity).
    destruct (elitist e) as [[|b]|] eqn:EE.
    + rewrite HK. cbn. unfold the_disc. cbn. rewrite HD. cbn. intros HE. injection HE as <-. reflexivity.
    + cbn [kept] in HK. destruct (subpopulation L (ebits b) (epool b)) as [sub|x] eqn:ES.
      * rewrite HK. cbn [fst of_option ebits epool emix eatt]. rewrite all_selected. unfold the_disc. cbn. rewrite HD. cbn. intros HE. injection HE as <-. reflexivity.
      * exfalso. revert H1. unfold cleanup, bind, get, lift, assign. rewrite EE. cbn [of_option]. rewrite ES. discriminate.
    + rewrite HK. cbn. intros HE. injection HE as <-. reflexivity.
  - split; [|intros X g; rewrite (cleanup_predicts _ _ _ X g H2); apply (cleanup_predicts _ _ _ X g H1)].
    assert (HK : elitist e1 = fst (kept (elitist e) (pool e)) /\ pool e1 = snd (kept (elitist e) (pool e))) by (destruct (cleanup_result e) as (? & ? & ? & HE & _); rewrite HE in H1; injection H1 as _ <-; split; reflexivity).
    destruct HK as [HK1 HK2]. destruct (cleanup_result e1) as (r0 & d & c & HE & _). rewrite HE in H2. injection H2 as _ <-. cbn [pool set_comps set_pool]. rewrite HK1, HK2.
    destruct (elitist e) as [[|b]|]; cbn [kept fst snd]; auto. destruct (subpopulation L (ebits b) (epool b)) as [sub|x] eqn:ES; cbn [fst snd]; [|cbn [kept]; rewrite ES; reflexivity].
    cbn [kept]. rewrite ?ES. cbn [kept fst snd ebits epool]. rewrite ?all_selected. reflexivity.
Qed.

(* ----- refused calls ----- *)
Lemma refused p os clean X y e : ~ good_data X y -> exists x e', fit p os clean X y e = (Raise x, e') /\ x = ValueError /\ is_fitted e' = is_fitted e /\ pool e' = pool e /\
  elitist e' = Some Placeholder.
Proof.
  intros H. assert (HC : check_X_y X y = Raise ValueError).
  { destruct (check_X_y X y) as [[]|x] eqn:EC; [exfalso; apply H, check_X_y_ok; auto|]. f_equal. unfold check_X_y in EC. destruct (check_X X) as [[]|x0] eqn:EX; cbn [rbind] in EC.
    - destruct (Nat.eqb (length y) (length X)); congruence.
    - injection EC as ->. eapply check_X_value; eauto. }
  rewrite fit_split. unfold prepare. do 4 (unfold bind at 1; unfold assign at 1). unfold bind at 1, lift at 1. rewrite HC. do 2 eexists. split; [reflexivity|]. auto.
Qed.
Lemma refused_unfitted p os clean X y e r e' X' g : is_fitted e = false -> ~ good_data X y -> fit p os clean X y e = (r, e') ->
  r = Raise ValueError /\ predict e' X' g = (Raise NotFittedError, g).
Proof.
  intros HF H HE. destruct (refused p os clean X y e H) as (x & e0 & H1 & -> & H2 & _). rewrite H1 in HE. injection HE as <- <-. split; auto.
  unfold predict. rewrite H2, HF. reflexivity.
Qed.
Lemma generators_refused p os clean X y e : good_data X y -> random_state p = Generator_ -> exists e', fit p os clean X y e = (Raise TypeError, e').
Proof.
  intros HG HR. apply check_X_y_ok in HG. rewrite fit_split. unfold prepare. do 4 (unfold bind at 1; unfold assign at 1). unfold bind at 1, lift at 1. rewrite HG, HR. eexists. reflexivity.
Qed.
End Clean.

Definition learned : est finds works silent := from par1 (unfitted finds works silent).
Definition again := fit par1 0 false dx [0] learned.
Definition shown := predict learned dx (scripted [0]).
Definition shown_values : list Q := match fst shown with Ok v => v | _ => [] end.
Lemma hd_zero v : Forall2 Qeq v (zeros dx) -> hd 0 v == 0.
Proof. intros H. inversion H; subst. auto. Qed.
Lemma bad_data : ~ good_data dx [0].
Proof. intros [_ H]. discriminate H. Qed.
Lemma refused_zeros : predict (snd again) dx (scripted [0]) = (Ok (zeros dx), scripted [0]).
Proof.
  destruct (refused ML finds works silent par1 0 false dx [0] learned bad_data) as (x & e' & H1 & H2 & H3 & H4 & H5). unfold again. rewrite H1. cbn [snd].
  assert (HF : is_fitted learned = true) by (vm_compute; reflexivity). unfold predict. rewrite H3, HF, H5. unfold negb, bind, lift. cbn. destruct (is_error e'); reflexivity.
Qed.
(* a fitted estimator that has learned something is given unusable data: fit raises, and from then on it predicts zeros *)
Lemma refused_loses_model : exists (L : learner) (D : discovery L) (C : composition L) (G : logger L) p X y X2 y2 e1 e2 g v1 g1,
  ready D C G p X y /\ fit p 0 false X y (unfitted D C G) = (Ok tt, e1) /\ is_error e1 = false /\
  predict e1 X g = (Ok v1, g1) /\ fit p 0 false X2 y2 e1 = (Raise ValueError, e2) /\ predict e2 X g = (Ok (zeros X), g) /\ ~ Forall2 Qeq v1 (zeros X).
Proof.
  exists ML, finds, works, silent, par1, dx, dyy, dx, [0], learned, (snd again), (scripted [0]), shown_values, (snd shown).
  split; [apply scripted_ready; cbn; lia|]. split; [apply ran_from; vm_compute; reflexivity|]. split; [vm_compute; reflexivity|]. split; [apply (ended shown); vm_compute; reflexivity|].
  split; [apply (ended again); vm_compute; reflexivity|]. split; [apply refused_zeros|].
  intros H. apply hd_zero in H. vm_compute in H. discriminate.
Qed.

(* ----- the statements of P_Fit ----- *)
Lemma contained_predicts : forall (L : learner) (D : discovery L) (C : composition L) (G : logger L) p os clean X y (e : est (recorded_d D) (recorded_c C) G) r e',
  ready D C G p X y -> fit p os clean X y e = (r, e') -> all_python e' -> some_call_raised e' ->
  r = Ok tt /\ is_fitted e' = true /\ forall X' g, good_table X' -> predict e' X' g = (Ok (zeros X'), g).
Proof.
  intros L D C G p os clean X y e r e' HR HE HP HS. destruct (contained L D C G p os X y e HR r e' clean HE HP HS) as (-> & H1 & H2). split; auto. split; auto.
  intros X' g HX. eapply predict_error; eauto.
Qed.
Lemma error_state_exactly : forall (L : learner) (D : discovery L) (C : composition L) (G : logger L) p os X y (e : est (recorded_d D) (recorded_c C) G) r e',
  ready D C G p X y -> fit p os false X y e = (r, e') -> quiet G -> (0 < n_iter p)%nat -> (0 < n_rules p)%nat ->
  (n_initial p = 0%nat \/ (step e < n_iter p)%nat) -> starts_empty C -> all_python e' -> Forall delivered (ccalls e') ->
  r = Ok tt /\ is_fitted e' = true /\ (is_error e' = true <-> some_call_raised e').
Proof. intros L D C G p os X y e r e' HR. intros. eapply error_exactly; eauto. Qed.
Lemma success_predicts : forall (L : learner) (D : discovery L) (C : composition L) (G : logger L) p os X y (e : est (recorded_d D) (recorded_c C) G) e',
  ready D C G p X y -> fit p os false X y e = (Ok tt, e') -> is_error e' = false ->
  exists b, (forall cs c, ccalls e' = cs ++ [c] -> c_best c = Ok (Some b)) /\
    forall X' g, good_table X' -> predict e' X' g = sol_predict L (smix b) (sbits b) (pool e') X' false g.
Proof.
  intros L D C G p os X y e e' HR HE HN. destruct (succeeded L D C G p os X y e HR e' HE HN) as (H1 & _ & b & H2 & H3). exists b. split; auto.
  intros X' g HX. rewrite (predict_learned L D C G e' _ X' g H1 HN H2 HX). reflexivity.
Qed.
Lemma pool_grows : forall (L : learner) (D : discovery L) (C : composition L) (G : logger L) p os X y (e : est (recorded_d D) (recorded_c C) G) r e',
  ready D C G p X y -> fit p os false X y e = (r, e') ->
  pool e' = found (dcalls e') /\
  (forall k c, nth_error (dcalls e') k = Some c -> d_pool c = found (firstn k (dcalls e'))) /\
  (forall k c, nth_error (ccalls e') k = Some c -> c_pool c = found (firstn ((if Nat.ltb 0 (n_initial p) then 1 else 0) + S k) (dcalls e'))).
Proof. intros L D C G p os X y e r e' HR HE. eapply pool_found; eauto. Qed.
Lemma pool_bounded : forall (L : learner) (D : discovery L) (C : composition L) (G : logger L) p os X y (e : est (recorded_d D) (recorded_c C) G) r e',
  ready D C G p X y -> modest D -> fit p os false X y e = (r, e') ->
  (length (pool e') <= n_initial p + n_iter p * n_rules p)%nat /\
  forall c, In c (ccalls e') -> (length (c_pool c) <= c_max c)%nat /\ c_max c = (n_initial p + n_iter p * n_rules p)%nat.
Proof. intros L D C G p os X y e r e' HR HM HE. eapply bounded; eauto. Qed.
Lemma seed_of_step : forall (L : learner) (D : discovery L) (C : composition L) (G : logger L) p os X y (e : est (recorded_d D) (recorded_c C) G) r e',
  ready D C G p X y -> n_initial p = 0%nat -> fit p os false X y e = (r, e') ->
  (forall k c, nth_error (dcalls e') k = Some c -> d_seed c = mkSeed (child_stream (root_seed os (random_state p)) (2 * k)) 0) /\
  (forall k c, nth_error (ccalls e') k = Some c -> c_seed c = mkSeed (child_stream (root_seed os (random_state p)) (2 * k + 1)) 0).
Proof. intros L D C G p os X y e r e' HR HN HE. eapply streams; eauto. Qed.
Lemma streams_differ : forall (L : learner) (D : discovery L) (C : composition L) (G : logger L) p os X y (e : est (recorded_d D) (recorded_c C) G) r e',
  ready D C G p X y -> n_initial p = 0%nat -> fit p os false X y e = (r, e') ->
  NoDup (map (fun c => sstream (d_seed c)) (dcalls e') ++ map (fun c => sstream (c_seed c)) (ccalls e')).
Proof. intros L D C G p os X y e r e' HR HN HE. eapply streams_distinct; eauto. Qed.
Lemma disabled_never_stops : forall (L : learner) (D : discovery L) (C : composition L) (G : logger L) p os X y (e : est (recorded_d D) (recorded_c C) G) e',
  ready D C G p X y -> fit p os false X y e = (Ok tt, e') -> is_error e' = false -> (patience p <= 0)%Z -> length (ccalls e') = n_iter p.
Proof. intros L D C G p os X y e e' HR HE HN HP. eapply never_early; eauto. Qed.
Lemma stops_when : forall (L : learner) (D : discovery L) (C : composition L) (G : logger L) p os X y (e : est (recorded_d D) (recorded_c C) G) e',
  ready D C G p X y -> fit p os false X y e = (Ok tt, e') -> is_error e' = false -> (0 < patience p)%Z ->
  exists fs, Forall2 elite_fitness (ccalls e') fs /\
    (length fs = n_iter p \/ last_all (fun f => nlt (Fin (delta p)) f = false) (Z.to_nat (patience p)) fs) /\
    (forall k, (k < length fs)%nat -> ~ last_all (fun f => nlt (Fin (delta p)) f = false) (Z.to_nat (patience p)) (firstn k fs)).
Proof. intros L D C G p os X y e e' HR HE HN HP. eapply early_stop; eauto. Qed.
Lemma fit_cleanup_predicts : forall (L : learner) (D : discovery L) (C : composition L) (G : logger L) p os X y (e : est D C G) e1 r2 e2 X' g,
  fit p os false X y e = (Ok tt, e1) -> fit p os true X y e = (r2, e2) -> predict e2 X' g = predict e1 X' g.
Proof.
  intros L D C G p os X y e e1 r2 e2 X' g H1 H2. rewrite fit_clean, H1 in H2. destruct (is_error e1); [injection H2 as _ <-; reflexivity|].
  eapply cleanup_predicts; eauto.
Qed.
Lemma generator_refused : forall (L : learner) (D : discovery L) (C : composition L) (G : logger L) p os clean X y (e : est D C G),
  good_data X y -> random_state p = Generator_ -> check_random_state (random_state p) = Ok tt /\ exists e', fit p os clean X y e = (Raise TypeError, e').
Proof. intros L D C G p os clean X y e HG HR. split; [rewrite HR; reflexivity|]. apply generators_refused; auto. Qed.
Lemma calm_python {D C} (e : est (recorded_d D) (recorded_c C) silent) : calm e = true -> all_python e.
Proof.
  intros H. unfold calm in H. apply andb_prop in H as [H1 H2]. rewrite forallb_forall in H1, H2. split; apply Forall_forall; intros c HC x HX; [specialize (H1 c HC)|specialize (H2 c HC)]; rewrite HX in *; discriminate.
Qed.
Definition pythonic {D C} (e : est (recorded_d D) (recorded_c C) silent) : bool :=
  forallb (fun c => match d_out c with Raise x => python_exn x | _ => true end) (dcalls e) && forallb (fun c => match c_out c with Raise x => python_exn x | _ => true end) (ccalls e).
Lemma pythonic_ok {D C} (e : est (recorded_d D) (recorded_c C) silent) : pythonic e = true -> all_python e.
Proof.
  intros H. unfold pythonic in H. apply andb_prop in H as [H1 H2]. rewrite forallb_forall in H1, H2. split; apply Forall_forall; intros c HC x HX; [specialize (H1 c HC)|specialize (H2 c HC)]; rewrite HX in *; auto.
Qed.
Lemma not_calm {D C} (e : est (recorded_d D) (recorded_c C) silent) : calm e = false -> some_call_raised e.
Proof.
  unfold calm. intros H. apply andb_false_iff in H as [H|H].
  - left. induction (dcalls e) as [|c l IH]; [discriminate|]. cbn in H. destruct (d_out c) as [rs|x] eqn:EC.
    + destruct (IH H) as (c' & H1 & H2). exists c'. split; [right; auto|auto].
    + exists c. split; [left; auto|]. exists x. auto.
  - right. induction (ccalls e) as [|c l IH]; [discriminate|]. cbn in H. destruct (c_out c) as [rs|x] eqn:EC.
    + destruct (IH H) as (c' & H1 & H2). exists c'. split; [right; auto|auto].
    + exists c. split; [left; auto|]. exists x. auto.
Qed.
Lemma delivered_all (calls : list (ccall ML)) : forallb (fun c => match fitness_of c with Some _ => true | None => false end) calls = true -> Forall delivered calls.
Proof.
  intros H. rewrite forallb_forall in H. apply Forall_forall. intros c HC _. specialize (H c HC). unfold fitness_of in H. destruct (c_best c) as [[b|]|x]; try discriminate. eauto.
Qed.
Lemma fit_example :
  let e1 := end_of breaks works par1 in let e2 := end_of finds works par1 in
  ready breaks works silent par1 dx dyy /\ all_python e1 /\ some_call_raised e1 /\ is_error e1 = true /\ length (pool e1) = 1%nat /\
  ready finds works silent par1 dx dyy /\ quiet silent /\ starts_empty works /\ all_python e2 /\ Forall delivered (ccalls e2) /\ is_error e2 = false /\ good_table dx.
Proof.
  assert (HR : ready finds works silent par1 dx dyy) by (apply scripted_ready; cbn; lia).
  cbv zeta. split; [apply scripted_ready; cbn; lia|]. split; [apply pythonic_ok; vm_compute; reflexivity|]. split; [apply not_calm; vm_compute; reflexivity|]. split; [vm_compute; reflexivity|].
  split; [vm_compute; reflexivity|]. split; [exact HR|]. split; [exact silent_quiet|]. split; [apply scripted_starts|]. split; [apply calm_python; vm_compute; reflexivity|].
  split; [apply delivered_all; vm_compute; reflexivity|]. split; [vm_compute; reflexivity|]. apply HR.
Qed.
Lemma generator_witness : exists (L : learner) (D : discovery L) (C : composition L) (G : logger L) p X y e',
  good_data X y /\ random_state p = Generator_ /\ check_random_state (random_state p) = Ok tt /\ fit p 0 false X y (unfitted D C G) = (Raise TypeError, e').
Proof.
  assert (HG : good_data dx dyy) by (apply (scripted_ready (fun _ => Ok []) (fun _ => Ok tt) (fun _ => Fin 1) par1); cbn; lia).
  destruct (generators_refused ML finds works silent (par 3 0 1 Generator_ (-1) 0) 0 false dx dyy (unfitted finds works silent) HG eq_refl) as [e' HE].
  exists ML, finds, works, silent, (par 3 0 1 Generator_ (-1) 0), dx, dyy, e'. auto.
Qed.
