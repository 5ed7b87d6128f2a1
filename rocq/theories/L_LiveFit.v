(* Calls of fit that always succeed. *)
From Coq Require Import Lia String.
From Verif Require Import PyNum PyList PyMon PyRng L_Num L_List L_Rng M_Matching S_Matching M_Rule S_Rule M_RuleGen M_Mixing S_Mixing M_Discovery S_Discovery L_Discovery L_DiscoveryProps M_Novelty S_Novelty L_NoveltyRun
  M_Solution S_Solution M_Composition S_Composition L_Safe L_SafeFit L_Composition M_GenomeOps M_GA S_Optimizers L_Shipped
  M_Fit S_Fit L_Fit L_FitProps M_Shipped S_Shipped L_ShippedFit M_Logging S_Live L_LiveDisc L_LiveNs L_LiveComp L_LiveAco L_LiveSaga.

Section Live.
Variable L : learner.
Variables (D : discovery L) (C : composition L) (G : logger L) (p : params) (X : matrix) (y : targets).
Variables P1 P2 : list (rule L) -> dst D -> cst C -> Prop.
Let M := (n_rules p * n_iter p + n_initial p)%nat.
Hypothesis HG0 : exists l, linit G = Ok l.
Hypothesis HG1 : forall pool d c b i l, P1 pool d c -> cbest C c = Ok (Some b) -> length (sbits b) = length pool ->
  exists l', literation G X y i pool (cpopulation C c) (Ok (Some (with_pool pool b))) l = Ok l'.
Hypothesis HG2 : forall pool d c b l, P1 pool d c -> cbest C c = Ok (Some b) -> length (sbits b) = length pool ->
  exists l', lfinal G X y pool (Learned (with_pool pool b)) l = Ok l'.
Hypothesis HP0 : forall d c, dnew D X = Ok d -> cnew C = Ok c -> P1 [] d c.
Hypothesis HD : forall pool d c n s, P1 pool d c -> (0 < n)%nat -> exists el new k d', cbest C c = Ok el /\
  drun D X y pool (option_map (with_pool pool) el) n s d = (Ok new, (k, d')) /\ P2 (pool ++ new) d' c.
Hypothesis HC : forall pool d c s, P2 pool d c -> exists c' b, crun C X y M pool s c = (Ok tt, c') /\ P1 pool d c' /\ cbest C c' = Ok (Some b) /\ length (sbits b) = length pool.
Hypothesis HS : (0 < n_initial p)%nat -> forall pool d c, P2 pool d c -> cnew C = Ok c -> P1 pool d c.
Notation est := (est D C G).
Definition alive (P : list (rule L) -> dst D -> cst C -> Prop) (e : est) : Prop :=
  max_len e = M /\ is_error e = false /\ (exists l, logs e = Some l) /\ length (dseeds e) = n_iter p /\ length (cseeds e) = n_iter p /\
  exists d c, disc e = Some d /\ compo e = Some c /\ P (pool e) d c.
Definition led (e : est) : Prop := exists c b, compo e = Some c /\ cbest C c = Ok (Some b) /\ length (sbits b) = length (pool e).

Lemma discover_alive n e : alive P1 e -> (0 < n)%nat -> (step e < n_iter p)%nat ->
  exists e', discover_safely X y n e = (Ok false, e') /\ alive P2 e' /\ step e' = step e /\ compo e' = compo e.
Proof.
  intros (HM & HE & HL & H1 & H2 & d & c & Hd & Hc & HP) Hn Hs. unfold discover_safely, catch. destruct (Nat.eqb_spec n 0); [lia|].
  destruct (nth_error (dseeds e) (step e)) as [s|] eqn:ES; [|apply nth_error_None in ES; lia].
  destruct (HD _ _ _ n s HP Hn) as (el & new & k & d' & HB & HR & HP2).
  unfold discover, bind, lift, get, assign, the_disc, best, the_compo. rewrite Hc, Hd. cbn [of_option rbind]. rewrite HB. cbn [rbind]. rewrite ES. cbn [of_option]. rewrite HR.
  eexists. split; [reflexivity|]. split; [|cbn; auto]. split; [exact HM|]. split; [exact HE|]. split; [exact HL|]. cbn. rewrite update_length. split; [exact H1|]. split; [exact H2|].
  exists d', c. auto.
Qed.
Lemma compose_alive e : alive P2 e -> (step e < n_iter p)%nat -> exists e', compose_safely X y e = (Ok false, e') /\ alive P1 e' /\ led e'.
Proof.
  intros (HM & HE & HL & H1 & H2 & d & c & Hd & Hc & HP) Hs. unfold compose_safely, catch, compose_step, bind, lift, get, assign, the_compo. rewrite Hc. cbn [of_option].
  destruct (nth_error (cseeds e) (step e)) as [s|] eqn:ES; [|apply nth_error_None in ES; lia]. cbn [of_option]. rewrite HM.
  destruct (HC _ _ _ s HP) as (c' & b & HR & HP1 & HB & HLb). rewrite HR. eexists. split; [reflexivity|]. split.
  - split; [exact HM|]. split; [exact HE|]. split; [exact HL|]. split; [exact H1|]. split; [exact H2|]. exists d, c'. auto.
  - exists c', b. auto.
Qed.
Lemma check_alive e : alive P1 e -> led e -> exists b e', check_early_stopping p e = (Ok b, e') /\ alive P1 e' /\ led e'.
Proof.
  intros H (c & b & Hc & HB & HLb). unfold check_early_stopping. destruct (Z.ltb 0 (patience p)); [|exists false, e; split; [reflexivity|]; split; [exact H|exists c, b; auto]].
  unfold bind, lift, get, assign, best, the_compo. rewrite Hc. cbn [of_option rbind]. rewrite HB. cbn [rbind option_map of_option].
  destruct (nlt _ _); eexists _, _; (split; [reflexivity|]); (split; [exact H|exists c, b; auto]).
Qed.
Lemma loop_alive : (0 < n_rules p)%nat -> forall steps e, Forall (fun i => (i < n_iter p)%nat) steps -> alive P1 e -> (steps = [] -> led e) ->
  exists e', main_loop p X y steps e = (Ok false, e') /\ alive P1 e' /\ led e'.
Proof.
  intros Hn. induction steps as [|i steps IH]; intros e HF H HL; cbn [main_loop]; [exists e; split; [reflexivity|]; auto|].
  apply Forall_cons_iff in HF as [Hi HF]. unfold bind at 1. unfold assign at 1. assert (H1 : alive P1 (set_step i e)) by exact H. assert (HSi : step (set_step i e) = i) by reflexivity.
  revert H1 HSi. generalize (set_step i e). clear e H HL. intros e H HSi.
  destruct (discover_alive (n_rules p) e H Hn) as (e1 & E1 & H1 & S1 & _); [lia|]. rewrite (bind_ok _ _ _ _ _ E1).
  destruct (compose_alive e1 H1) as (e2 & E2 & H2 & L2); [lia|]. rewrite (bind_ok _ _ _ _ _ E2).
  unfold bind at 1, get. pose proof H2 as (_ & _ & (l & Hl) & _ & _ & dd & cc & _ & Hcc & HPc). pose proof L2 as (cc' & bb & Hcc' & HBb & HLb). assert (cc' = cc) by congruence. subst cc'. unfold bind at 1, lift at 1. unfold the_logs at 1. rewrite Hl. cbn [of_option].
  unfold bind at 1, lift at 1. destruct (HG1 _ _ _ bb (step e2) l HPc HBb HLb) as (l' & El).
  assert (EB : best e2 = Ok (Some (with_pool (pool e2) bb))) by (unfold best, the_compo; rewrite Hcc; cbn [of_option rbind]; rewrite HBb; reflexivity).
  assert (EP : population e2 = cpopulation C cc) by (unfold population, the_compo; rewrite Hcc; reflexivity). rewrite EB, EP, El.
  unfold bind at 1, assign at 1.
  assert (H3 : alive P1 (set_logs (Some l') e2)). { destruct H2 as (A1 & A2 & _ & A3). split; [exact A1|]. split; [exact A2|]. split; [exists l'; reflexivity|]. exact A3. }
  assert (L3 : led (set_logs (Some l') e2)) by exact L2. revert H3 L3. generalize (set_logs (Some l') e2). intros e3 H3 L3.
  destruct (check_alive e3 H3 L3) as (b & e4 & E4 & H4 & L4). rewrite (bind_ok _ _ _ _ _ E4). destruct b; [exists e4; split; [reflexivity|]; auto|].
  apply IH; auto.
Qed.
Definition success (clean : bool) (e' : est) : Prop :=
  is_error e' = false /\ is_fitted e' = true /\ exists pool d c b, P1 pool d c /\ cbest C c = Ok (Some b) /\ length (sbits b) = length pool /\
    elitist e' = Some (Learned (if clean then mkElite (repeat true (length (compress pool (sbits b)))) (compress pool (sbits b)) (smix b) (smeasured b) else with_pool pool b)).
Lemma finish_alive clean e : alive P1 e -> led e -> exists e', finish clean X y e = (Ok tt, e') /\ success clean e'.
Proof.
  intros (HM & HE & (l & Hl) & _ & _ & d & c & Hd & Hc & HP) (c' & b & Hc' & HB & HLb). assert (c' = c) by congruence. subst c'.
  destruct (HG2 _ _ _ b l HP HB HLb) as (l' & El).
  unfold finish, bind, lift, get, assign, best, the_compo, the_logs. rewrite Hc. cbn [of_option rbind]. rewrite HB. cbn. rewrite Hl. cbn. rewrite El. destruct clean.
  - unfold cleanup, bind, lift, get, assign, the_disc, the_compo. cbn. unfold subpopulation. rewrite HLb, Nat.eqb_refl. cbn. rewrite Hd, Hc. cbn. eexists. split; [reflexivity|].
    split; [exact HE|]. split; [reflexivity|]. exists (pool e), d, c, b. auto.
  - eexists. split; [reflexivity|]. split; [exact HE|]. split; [reflexivity|]. exists (pool e), d, c, b. auto.
Qed.
Lemma fit_alive os clean (e : est) : good_data X y -> seedable (random_state p) -> (exists d, dnew D X = Ok d) -> (exists c, cnew C = Ok c) ->
  (0 < n_iter p)%nat -> (0 < n_rules p)%nat -> (n_initial p = 0 \/ step e < n_iter p)%nat ->
  exists e', fit p os clean X y e = (Ok tt, e') /\ success clean e'.
Proof.
  intros Hgd Hsd (d & Hd) (c & Hc) Hit Hru Hini. destruct HG0 as (l & Hl).
  assert (HPr : exists e0, prepare p os X y e = (Ok tt, e0) /\ alive P1 e0 /\ step e0 = step e /\ compo e0 = Some c).
  { pose proof (proj2 (check_X_y_ok X y) Hgd) as HXy. destruct (seedable_ok os _ Hsd) as [HS1 HS2]. unfold prepare. do 4 (unfold bind at 1; unfold assign at 1). unfold bind at 1, lift at 1.
    rewrite HXy. unfold bind at 1, lift at 1. rewrite HS1. unfold bind at 1, lift at 1. rewrite HS2. cbv zeta. do 2 (unfold bind at 1; unfold assign at 1).
    unfold bind at 1, lift at 1. rewrite Hd. unfold bind at 1, lift at 1. rewrite Hc. do 2 (unfold bind at 1; unfold assign at 1). unfold bind at 1, lift at 1. rewrite Hl.
    unfold assign. rewrite seeds_d, seeds_c. eexists. split; [reflexivity|]. split; [|cbn; auto]. split; [reflexivity|]. split; [reflexivity|]. split; [exists l; reflexivity|].
    cbn. unfold fresh_d, fresh_c. rewrite !map_length, !seq_length. split; [reflexivity|]. split; [reflexivity|]. exists d, c. auto. }
  destruct HPr as (e0 & E0 & H0 & S0 & C0). unfold fit. rewrite (bind_ok _ _ _ _ _ E0).
  assert (HA : forall e2, alive P1 e2 -> exists e', bind (main_loop p X y (seq 0 (n_iter p))) (fun failed => if failed then ret tt else finish clean X y) e2 = (Ok tt, e') /\ success clean e').
  { intros e2 H2. destruct (loop_alive Hru (seq 0 (n_iter p)) e2) as (e3 & E3 & H3 & L3); [|exact H2| |].
    - apply Forall_forall. intros i Hi. apply in_seq in Hi. lia.
    - intros HN. apply (f_equal (@length _)) in HN. rewrite seq_length in HN. cbn in HN. lia.
    - rewrite (bind_ok _ _ _ _ _ E3). apply finish_alive; assumption. }
  destruct (Nat.ltb_spec 0 (n_initial p)) as [Hlt|Hge].
  - destruct (discover_alive (n_initial p) e0 H0 Hlt) as (e1 & E1 & H1 & S1 & C1); [lia|]. rewrite (bind_ok _ _ _ _ _ E1). apply HA.
    destruct H1 as (A1 & A2 & A3 & A4 & A5 & d1 & c1 & Hd1 & Hc1 & HP2). split; [exact A1|]. split; [exact A2|]. split; [exact A3|]. split; [exact A4|]. split; [exact A5|].
    exists d1, c1. split; [exact Hd1|]. split; [exact Hc1|]. apply HS; [exact Hlt|exact HP2|]. congruence.
  - rewrite (bind_ok _ _ _ false e0) by reflexivity. apply HA. exact H0.
Qed.
End Live.

(* ----- the library's components ----- *)
Section Instance.
Variables (L : learner) (rngof : stream -> rng) (X : matrix) (y : targets) (d : nat).
Hypothesis HT : table d X y.
Hypothesis HX : X <> [].

Lemma kept_pooled a r (D : denv L) : dX D = X -> dy D = y -> kept L X y a r -> pooled L D d r.
Proof.
  intros EX EY (H1 & H2 & _). unfold pooled. rewrite EX, EY. split; [exact H1|]. split; [|exact H2]. destruct H2 as (x & Hx & Hc).
  destruct HT as [HT1 _]. rewrite Forall_forall in HT1. rewrite <- (HT1 _ Hx). unfold covers in Hc. clear - Hc. induction Hc; cbn; congruence.
Qed.
Lemma estimate_ok : exists bs, estimate_bounds X = Ok bs.
Proof. unfold estimate_bounds. destruct X; [congruence|eauto]. Qed.
Lemma init_bounds_ok k : exists k', init_bounds X k = Ok k'.
Proof. destruct estimate_ok as (bs & E). unfold init_bounds. rewrite E. cbn. eauto. Qed.
Lemma es_new_ok c : es_works c -> es_new c = Ok c.
Proof. intros [_ _ _ H]. unfold es_new. destruct (es_operator c); auto. destruct (H eq_refl) as [_ Hlt]. apply Nat.ltb_lt in Hlt. rewrite Hlt. reflexivity. Qed.

Lemma discovery_works D k a o : working_discovery L rngof D k a o -> usable a -> given_dim d k ->
  exists Dinv : list (rule L) -> dst D -> Prop,
    (exists s, dnew D X = Ok s) /\ (forall s, dnew D X = Ok s -> Dinv [] s) /\
    (forall pool el n s st, Forall (kept L X y a) pool -> Dinv pool st -> match el with Some b => length (ebits b) = length pool | None => True end ->
       (asks o -> (exists b, el = Some b /\ mixing_works (emix b)) \/ pool = []) ->
       exists new j st', drun D X y pool el n s st = (Ok new, (j, st')) /\ Forall (kept L X y a) new /\ Dinv (pool ++ new) st').
Proof.
  intros HD HU HG. destruct (init_bounds_ok k) as (k' & Ek). pose proof (init_bounds_dim L X y d HT k k' HG Ek) as Hk'.
  assert (HEl : forall pool (el : option (elite L)), match el with Some b => length (ebits b) = length pool | None => True end ->
    match delite (discovery_env X y pool el) with Some bits => length bits = length (dpool (discovery_env X y pool el)) | None => True end).
  { intros pool el H. destruct el; exact H. }
  assert (HAs : forall pool (el : option (elite L)) o, (asks o -> (exists b, el = Some b /\ mixing_works (emix b)) \/ pool = []) ->
    asks o -> (delite (discovery_env X y pool el) <> None /\ mixing_works (dmix (discovery_env X y pool el))) \/ dpool (discovery_env X y pool el) = []).
  { intros pool el o0 H Ho. destruct (H Ho) as [(b & -> & Hb)| ->]; [left; split; [discriminate|exact Hb]|right; reflexivity]. }
  destruct HD as [c k Hw|c k Hw|c k Hw Hfin].
  - set (c1 := mkEs (set_constraint k' (es_d c)) (es_iter c) (es_lambda c) (es_operator c) (es_delay c) (es_mut c) (es_sel c)).
    assert (Hw1 : es_works c1) by (destruct Hw; constructor; assumption).
    assert (HN : dnew (es_discovery L rngof c k) X = Ok c1) by (cbn [dnew es_discovery]; rewrite (es_new_ok c Hw); cbn [rbind]; rewrite Ek; reflexivity).
    exists (fun _ s => s = c1). split; [exists c1; exact HN|]. split; [intros s Hs; congruence|].
    intros pool el n s st HP -> HE HA. cbn [drun es_discovery]. set (DD := discovery_env X y pool el).
    assert (HPd : Forall (pooled L DD d) (dpool DD)) by (eapply Forall_impl; [|exact HP]; intros r Hr; apply (kept_pooled (d_accept (es_d c))); auto).
    destruct (es_goes L DD d HT HX HPd (HEl _ _ HE) c1 n (fun i => rngof (child s (spawned s + i))) (rngof (sstream s)) Hk' Hw1 (HAs _ _ _ HA)) as (out & g' & E).
    rewrite E. cbn [fst]. eexists _, _, _. split; [reflexivity|]. split; [|reflexivity].
    exact (proj2 (es_optimize_accepted L DD d HT c1 Hk' n _ _ _ _ HU E)).
  - set (c1 := mkRs (set_constraint k' (rs_d c)) (rs_generated c) (rs_sel c)).
    assert (Hw1 : rs_works c1) by (destruct Hw; constructor; assumption).
    assert (HN : dnew (rs_discovery L rngof c k) X = Ok c1) by (cbn [dnew rs_discovery]; rewrite Ek; reflexivity).
    exists (fun _ s => s = c1). split; [exists c1; exact HN|]. split; [intros s Hs; congruence|].
    intros pool el n s st HP -> HE HA. cbn [drun rs_discovery]. set (DD := discovery_env X y pool el).
    assert (HPd : Forall (pooled L DD d) (dpool DD)) by (eapply Forall_impl; [|exact HP]; intros r Hr; apply (kept_pooled (d_accept (rs_d c))); auto).
    destruct (rs_goes L DD d HT HX HPd (HEl _ _ HE) c1 n (rngof (sstream s)) Hk' Hw1 (HAs _ _ _ HA)) as (out & g' & E).
    rewrite E. cbn [fst]. eexists _, _, _. split; [reflexivity|]. split; [|reflexivity].
    exact (proj2 (rs_optimize_accepted L DD d HT c1 n _ _ _ Hk' HU E)).
  - set (c1 := with_constraint k' c).
    assert (Hw1 : ns_works c1) by (destruct Hw; constructor; assumption).
    assert (HN : dnew (ns_discovery L rngof c k) X = Ok (c1, [])).
    { cbn [dnew ns_discovery]. unfold ns_new. pose proof (nsw_k c Hw) as Hlt. apply Nat.ltb_lt in Hlt. rewrite Hlt. cbn [assert_ rbind]. rewrite Ek. reflexivity. }
    exists (fun pool (z : nscfg * list (cell L)) => fst z = c1 /\ map crule (snd z) = pool /\ Forall (searched d X y) (snd z)).
    split; [exists (c1, []); exact HN|]. split; [intros s Hs; rewrite HN in Hs; injection Hs as <-; cbn; auto|].
    intros pool el n s [c' cs] HP (Hc' & HMp & HC) HE HA. cbn [fst snd] in Hc', HMp, HC. subst c' pool. cbn [drun ns_discovery fst snd].
    assert (HM : Forall (fun x => matches_some X (crule x)) cs).
    { rewrite Forall_map in HP. revert HP. apply Forall_impl. intros x (_ & H & _). exact H. }
    destruct (ns_goes L c1 X y d cs (delite (discovery_env X y [] el)) (dmix (discovery_env X y [] el)) n (rngof (sstream s)) HT HX Hfin Hk' Hw1 HC HM) as (out & g' & E).
    { destruct el as [b|]; [exact HE|exact I]. }
    { intros Ho. destruct (HA Ho) as [(b & -> & Hb)|H]; [left; split; [discriminate|exact Hb]|right; apply map_eq_nil in H; exact H]. }
    rewrite E. cbn [fst]. eexists _, _, _. split; [reflexivity|].
    destruct (ns_optimize_accepted L c1 d X y cs _ _ n _ out g' HT HX Hfin Hk' HU (nsw_type c Hw) HC E) as [_ H2]. split.
    + apply Forall_map. revert H2. apply Forall_impl. intros x ((A & _) & _ & B & C). split; [exact A|split; [exact B|exact C]].
    + cbn [fst snd]. split; [reflexivity|]. split; [apply map_app|]. apply Forall_app. split; [exact HC|]. revert H2. apply Forall_impl. intros x (A & _). exact A.
Qed.

Lemma pool_measurable a mix f M pool : mixing_works mix -> Forall (kept L X y a) pool -> measurable (step_env mix f X y M pool).
Proof.
  intros HM HP bits g HL. apply (sol_fit_goes L mix (f M) bits pool X y d g HM HT HX HL). eapply Forall_impl; [|exact HP]. intros r Hr.
  exact (kept_pooled a r (mkDenv X y [] None mix) eq_refl eq_refl Hr).
Qed.
Lemma pool_fitted a mix f M pool : Forall (kept L X y a) pool -> fitted_rules (step_env mix f X y M pool).
Proof. apply Forall_impl. intros r ([_ (at_ & H & _)] & _). rewrite H. discriminate. Qed.
(* ----- the loggers ----- *)
Lemma stats_ok i name vs m : vs <> [] -> exists m', log_stats i name vs m = Ok m'.
Proof.
  intros HN. unfold log_stats, pymin_num, pymax_num, pymean. destruct (pymax_some (fun a b => nlt b a) vs HN) as (v1 & E1). destruct (pymax_some nlt vs HN) as (v2 & E2).
  rewrite E1, E2. cbn [of_option rbind]. destruct vs as [|v vs]; [congruence|]. cbn [rbind].
  assert (HP : forall c, exists q, percentile_mu (v :: vs) c = Ok q) by (intros c; unfold percentile_mu; destruct (existsb is_nan (v :: vs)); eauto).
  destruct (HP 10) as (q1 & ->), (HP 25) as (q2 & ->), (HP 75) as (q3 & ->), (HP 90) as (q4 & ->). cbn [rbind]. eauto.
Qed.
Lemma map_nonempty {A B} (f : A -> B) l : l <> [] -> map f l <> [].
Proof. destruct l; [congruence|discriminate]. Qed.
Lemma score_ok a g (b : elite L) : Forall (kept L X y a) (epool b) -> mixing_works (emix b) -> length (ebits b) = length (epool b) -> exists s, elite_score g b X y = Ok s.
Proof.
  intros HP HM HL. unfold elite_score.
  destruct (sol_predict_goes L (emix b) (ebits b) (epool b) X d g HM (proj1 HT) HL) as (z & g' & E & Hz).
  { eapply Forall_impl; [|exact HP]. intros r Hr. destruct (kept_pooled a r (mkDenv X y [] None (emix b)) eq_refl eq_refl Hr) as (P1 & P2 & P3). eapply fitted_ready; eauto. }
  rewrite E. cbn [fst rbind]. unfold r2_score. rewrite Hz, (proj2 HT), Nat.eqb_refl. cbn [negb]. destruct (Nat.ltb (length X) 2); eauto.
Qed.
Lemma pool_logged a i pool m : Forall (kept L X y a) pool -> exists m', log_pool i pool m = Ok m'.
Proof.
  intros HP. unfold log_pool. destruct pool as [|r rs]; [eauto|].
  assert (HR : exists fs, rmap (fun r => let? a := get_att L r in Ok (M_Rule.fitness a)) (r :: rs) = Ok fs).
  { apply rmap_total. intros q Hq. rewrite Forall_forall in HP. destruct (kept_pooled a q (mkDenv X y [] None (mkMixing KeepAll ExpAsIs 1)) eq_refl eq_refl (HP q Hq)) as (P1 & P2 & P3).
    destruct (fitted_ready L X y d q HT P1 P2 P3) as (_ & (at_ & Hat & _) & _). unfold get_att. rewrite Hat. cbn. eauto. }
  destruct HR as (fs & E). rewrite E. cbn [rbind]. apply stats_ok. apply rmap_len in E. intros ->. discriminate.
Qed.
Lemma logger_lives a G : working_logger L G -> X <> [] -> good_table X ->
  (exists l, linit G = Ok l) /\
  (forall i pop (b : elite L) l, Forall (kept L X y a) (epool b) -> mixing_works (emix b) -> length (ebits b) = length (epool b) -> pop <> [] ->
     exists l', literation G X y i (epool b) (Ok pop) (Ok (Some b)) l = Ok l') /\
  (forall (b : elite L) l, Forall (kept L X y a) (epool b) -> mixing_works (emix b) -> length (ebits b) = length (epool b) ->
     exists l', lfinal G X y (epool b) (Learned b) l = Ok l').
Proof.
  intros HW HXn Hgt. induction HW as [G (H1 & H2 & H3)|g|g|G H HW1 (A1 & A2 & A3) HW2 (B1 & B2 & B3)].
  - auto.
  - split; [eexists; reflexivity|]. split; [|intros; eexists; reflexivity]. intros i pop b l HP HM HL HN. cbn [literation default_logger]. unfold log_iteration.
    destruct (pool_logged a i (epool b) l HP) as (m1 & ->). cbn [rbind]. unfold log_population.
    destruct (stats_ok i "population_fitness"%string (map sfitness pop) (log_metric m1 ("population_size"%string, i) (Fin (qofnat (length pop))))) as (m2 & ->); [apply map_nonempty; exact HN|]. cbn [rbind].
    destruct (stats_ok i "population_error"%string (map (fun a => Fin (serror a)) pop) m2) as (m3 & ->); [apply map_nonempty; exact HN|]. cbn [rbind].
    destruct (stats_ok i "population_complexity"%string (map (fun a => Fin (qofnat (scomplexity a))) pop) m3) as (m4 & ->); [apply map_nonempty; exact HN|]. cbn [rbind of_option].
    unfold log_elitist. destruct (score_ok a g b HP HM HL) as (s & ->). cbn [rbind]. eauto.
  - split; [eexists; reflexivity|]. split.
    + intros i pop b l HP HM HL HN. cbn [literation stdout_logger rbind of_option]. destruct (score_ok a g b HP HM HL) as (s & ->). cbn [rbind]. eauto.
    + intros b l HP HM HL. cbn [lfinal stdout_logger]. apply check_X_ok in Hgt. rewrite Hgt. cbn [rbind]. destruct (score_ok a g b HP HM HL) as (s & ->). cbn [rbind]. eauto.
  - split; [|split].
    + destruct A1 as (l1 & E1), B1 as (l2 & E2). cbn [linit both]. rewrite E1, E2. cbn. eauto.
    + intros i pop b l HP HM HL HN. cbn [literation both]. destruct (A2 i pop b (fst l) HP HM HL HN) as (l1 & ->). destruct (B2 i pop b (snd l) HP HM HL HN) as (l2 & ->). cbn. eauto.
    + intros b l HP HM HL. cbn [lfinal both]. destruct (A3 b (fst l) HP HM HL) as (l1 & ->). destruct (B3 b (snd l) HP HM HL) as (l2 & ->). cbn. eauto.
Qed.
(* the population can be read *)
Lemma population_read {K} (O : optimizer K) i cc mix f M Iok pool z : settledc L K O cc mix f X y M Iok pool z -> cpop (fst z) <> [] ->
  exists pop, cpopulation (shipped_composition L rngof O i cc mix f) z = Ok pop /\ pop <> [].
Proof.
  intros (_ & _ & HH) HN. cbn [cpopulation shipped_composition]. apply Forall_app in HH as [HH _].
  assert (HG : exists pop, mmap get_satt (cpop (fst z)) (snd z) = (Ok pop, snd z) /\ length pop = length (cpop (fst z))).
  { induction HH as [|r rs Hr HH IH]; [exists []; split; reflexivity|]. destruct (honest_shows _ _ _ Hr) as (b & at_ & ob & Ho & Hb & Ha).
    assert (IH' : exists pop, mmap get_satt rs (snd z) = (Ok pop, snd z) /\ length pop = length rs).
    { destruct rs as [|r2 rs]; [exists []; split; reflexivity|apply IH; discriminate]. }
    destruct IH' as (pop & E & HL). exists (at_ :: pop). split; [|cbn; congruence]. cbn [mmap].
    rewrite (bind_ok _ _ _ at_ (snd z)) by (unfold get_satt, bind, get_sol, lift; rewrite Ho; cbn [of_option]; rewrite Ha; reflexivity).
    rewrite (bind_ok _ _ _ _ _ E). reflexivity. }
  destruct HG as (pop & E & HL). rewrite E. exists pop. split; [reflexivity|]. intros ->. destruct (cpop (fst z)); [congruence|discriminate].
Qed.
Lemma library_lives D k a o {K} (O : optimizer K) i cc mix f G p os clean (e : est D (shipped_composition L rngof O i cc mix f) G) :
  working_discovery L rngof D k a o -> working_composer f cc O i -> mixing_works mix -> usable a -> given_dim d k -> good_data X y -> seedable (random_state p) -> working_logger L G ->
  (0 < n_iter p)%nat -> (0 < n_rules p)%nat -> (n_initial p = 0 \/ (step e < n_iter p /\ ~ asks o))%nat ->
  exists e' b, fit p os clean X y e = (Ok tt, e') /\ is_error e' = false /\ is_fitted e' = true /\ elitist e' = Some (Learned b) /\
    Forall (kept L X y a) (epool b) /\ emix b = mix /\ length (ebits b) = length (epool b).
Proof.
  intros HD HC HM HU HG Hgd Hsd HQ Hit Hru Hini.
  destruct (discovery_works D k a o HD HU HG) as (Dinv & HDn & HD0 & HD1). destruct (works_runs f cc O i HC) as (Iok & lo & HO & HI & Hlo & HRn).
  set (M := (n_rules p * n_iter p + n_initial p)%nat). set (C := shipped_composition L rngof O i cc mix f).
  set (P1 := fun (pool : list (rule L)) (s : dst D) (z : cst C) => Forall (kept L X y a) pool /\ Dinv pool s /\ settledc L K O cc mix f X y M Iok pool z /\
    (asks o -> cpop (fst z) <> [] \/ pool = []) /\ (cpop (fst z) <> [] \/ cnew C = Ok z)).
  set (P2 := fun (pool : list (rule L)) (s : dst D) (z : cst C) => Forall (kept L X y a) pool /\ Dinv pool s /\ growingc L K O cc Iok pool z).
  destruct (logger_lives a G HQ HX (proj1 Hgd)) as (HQ0 & HQ1 & HQ2).
  destruct (fit_alive L D C G p X y P1 P2 HQ0) with (os := os) (clean := clean) (e := e) as (e' & HF & HE1 & HE2 & pl & s & z & b & HP & HB & HL & HEl); auto.
  - intros pool s z b i0 l (H1 & _ & H3 & _ & H5) HB HL. destruct (read_settled L rngof K O i cc mix f X y M Iok pool z b H3 HB) as (_ & R2 & _).
    destruct H5 as [HN|HN]; [|exfalso; assert (HNo : cbest C z = Ok None) by exact (shipped_starts_empty L rngof K O i cc mix f z HN); congruence].
    destruct (population_read O i cc mix f M Iok pool z H3 HN) as (pop & EPo & HNp). change (cpopulation C z = Ok pop) in EPo. rewrite EPo. apply (HQ1 i0 pop (with_pool pool b)); auto. cbn. rewrite R2. exact HM.
  - intros pool s z b l (H1 & _ & H3 & _) HB HL. destruct (read_settled L rngof K O i cc mix f X y M Iok pool z b H3 HB) as (_ & R2 & _).
    apply (HQ2 (with_pool pool b)); auto. cbn. rewrite R2. exact HM.
  - intros s z Hs Hz. split; [constructor|]. split; [auto|]. split; [eapply start_settled; eauto|]. auto.
  - intros pool s z n sd (H1 & H2 & H3 & H4 & H5) Hn.
    assert (HR : exists el, cbest C z = Ok el /\ match el with Some b => length (sbits b) = length pool /\ smix b = mix | None => True end /\ (cpop (fst z) <> [] -> el <> None)).
    { destruct H5 as [HN|HN].
      - destruct (read_ok L rngof K O i cc mix f X y M Iok pool z H3 HN) as (b & HB). exists (Some b). split; [exact HB|]. split; [|discriminate].
        destruct (read_settled L rngof K O i cc mix f X y M Iok pool z b H3 HB) as (R1 & R2 & _). auto.
      - exists None. split; [apply (shipped_starts_empty L rngof K O i cc mix f); exact HN|]. split; [exact I|].
        intros HN2. exfalso. apply HN2. cbn in HN. injection HN as <-. reflexivity. }
    destruct HR as (el & HB & HEl & HNe).
    destruct (HD1 pool (option_map (with_pool pool) el) n sd s H1 H2) as (new & j & s' & HR & HN & HI').
    { destruct el as [b|]; [|exact I]. cbn. tauto. }
    { intros Ha. destruct (H4 Ha) as [HN| ->]; [left|right; reflexivity]. destruct el as [b|]; [|exfalso; apply (HNe HN); reflexivity]. eexists. split; [reflexivity|].
      destruct HEl as [_ HEl]. cbn. rewrite HEl. exact HM. }
    exists el, new, j, s'. split; [exact HB|]. split; [exact HR|]. split; [apply Forall_app; auto|]. split; [exact HI'|]. eapply settled_growing; eauto.
  - intros pool s z sd (H1 & H2 & m & Hm & Hcv & Hca).
    destruct (optimize_lives (step_env mix f X y M pool) O Iok (contract_at _ O Iok HO) (pool_measurable a mix f M pool HM H1) lo (HRn L (step_env mix f X y M pool) M eq_refl (pool_measurable a mix f M pool HM H1) (pool_fitted a mix f M pool H1))
      cc m (rngof (sstream sd)) (fst z) (snd z) Hcv Hm Hca Hlo) as (st' & s' & EO & HN).
    assert (HR : crun C X y M pool sd z = (Ok tt, (st', s'))) by (cbn [crun C shipped_composition]; rewrite EO; reflexivity).
    assert (HS : settledc L K O cc mix f X y M Iok pool (st', s')). { eapply step_settles; [exact HO| |exact HR]. exists m. auto. }
    destruct (read_ok L rngof K O i cc mix f X y M Iok pool (st', s') HS HN) as (b & HB).
    destruct (read_settled L rngof K O i cc mix f X y M Iok pool (st', s') b HS HB) as (R1 & _ & _).
    exists (st', s'), b. split; [exact HR|]. split; [|auto]. split; [exact H1|]. split; [exact H2|]. split; [exact HS|]. cbn [fst]. auto.
  - intros Hn pool s z (H1 & H2 & H3) HN. split; [exact H1|]. split; [exact H2|]. split; [eapply start_again; eauto|]. split; [intros Ha; destruct Hini as [H|[_ H]]; [lia|contradiction]|auto].
  - cbn [cnew C shipped_composition]. eauto.
  - destruct Hini as [H|[H _]]; auto.
  - destruct HP as (H1 & _ & H3 & _). destruct (read_settled L rngof K O i cc mix f X y M Iok pl z b H3 HB) as (_ & R2 & _).
    exists e'. eexists. split; [exact HF|]. split; [exact HE1|]. split; [exact HE2|]. split; [exact HEl|]. destruct clean; cbn.
    + split; [|split; [exact R2|apply repeat_length]]. apply Forall_forall. intros r Hr. apply compress_In in Hr. rewrite Forall_forall in H1. auto.
    + auto.
Qed.
End Instance.
