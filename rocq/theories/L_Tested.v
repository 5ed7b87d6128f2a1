(* Discovery that always raises, and what becomes of fit then. *)
From Coq Require Import Lia.
From Verif Require Import PyNum PyList PyMon PyRng L_Num L_List L_Rng M_Matching S_Matching M_Rule S_Rule M_RuleGen M_Mixing M_Discovery S_Discovery L_Discovery L_DiscoveryProps M_Novelty S_Novelty
  M_Solution M_Composition L_SafeFit M_GenomeOps M_GA M_Fit S_Fit L_Fit L_FitProps M_Shipped S_Shipped L_ShippedFit M_Logging M_Defaults S_Live L_LiveDisc L_LiveFit L_LiveEx M_Tested S_Tested.
From Coq Require Import Lqa.

Definition halts {S A} (m : St S A) (s : S) : Prop := exists x s', m s = (Raise x, s') /\ python_exn x = true.
Lemma halts_first {S A B} (m : St S A) (k : A -> St S B) s : halts m s -> halts (bind m k) s.
Proof. intros (x & s' & E & H). exists x, s'. split; [apply bind_raise; exact E|exact H]. Qed.
Lemma halts_then {S A B} (m : St S A) (k : A -> St S B) s (Q : A -> Prop) : goes m s Q -> (forall a s', Q a -> halts (k a) s') -> halts (bind m k) s.
Proof. intros (a & s' & E & H) HK. destruct (HK a s' H) as (x & s2 & E2 & Hx). exists x, s2. split; [rewrite (bind_ok _ _ _ _ _ E); exact E2|exact Hx]. Qed.
Lemma halts_lift {S A} (r : res A) (s : S) x : r = Raise x -> python_exn x = true -> halts (lift r) s.
Proof. intros -> H. exists x, s. split; [reflexivity|exact H]. Qed.

(* ----- every initialisation and every mutation either works or always fails ----- *)
Lemma scale_bad s : ~ 0 <= s -> check_scale s = Raise ValueError.
Proof. intros H. unfold check_scale. destruct (qlt_spec s 0) as [_|H1]; [reflexivity|]. exfalso. apply H. lra. Qed.
Lemma nonneg_dec (s : Q) : 0 <= s \/ ~ 0 <= s.
Proof. destruct (Qlt_le_dec s 0) as [H|H]; [right; lra|left; exact H]. Qed.
Ltac halt := eexists _, _; split; [reflexivity|reflexivity].
Lemma init_either i t : init_suits i t -> init_works i t \/ (~ init_works i t /\ forall x g, halts (init_rule i t x) g).
Proof.
  intros HS.
  destruct i as [|[s|s0 s1]|s]; [left; exact I| | |]; destruct t; cbn in HS; try contradiction; cbn [init_works];
    try (right; split; [tauto|intros x g; unfold init_rule; cbn; halt]);
    try (destruct (nonneg_dec s) as [H|H]; [left; exact H|right; split; [exact H|intros x g; unfold init_rule; cbn; rewrite (scale_bad s H); halt]]).
  - destruct (nonneg_dec s0) as [H|H]; [|right; split; [tauto|intros x g; unfold init_rule; cbn; rewrite (scale_bad s0 H); halt]].
    destruct (nonneg_dec s1) as [H1|H1]; [left; auto|right; split; [tauto|intros x g; unfold init_rule; cbn; rewrite (scale_ok s0 H), (scale_bad s1 H1); halt]].
  - destruct (nonneg_dec s0) as [H|H]; [|right; split; [tauto|intros x g; unfold init_rule; cbn; rewrite (scale_bad s0 H); halt]].
    destruct (nonneg_dec s1) as [H1|H1]; [left; auto|right; split; [tauto|intros x g; unfold init_rule; cbn; rewrite (scale_ok s0 H), (scale_bad s1 H1); halt]].
Qed.
Lemma mutation_either mu t : mutation_suits mu t -> mutation_works mu t \/ (~ mutation_works mu t /\ forall m g, mt m = t -> halts (mutate mu m) g).
Proof.
  intros HS. assert (HM : forall m g, mt m = t -> mutate mu m g = match noise_bounds mu t (bnd m) g with (Ok bs, g') => (Ok (mkMatching t (sort_if_ordered t bs)), g') | (Raise e, g') => (Raise e, g') end).
  { intros m g <-. reflexivity. }
  destruct mu as [[s|s0 s1]|[s|s0 s1]|[s|s0 s1]|[s|s0 s1]|[s|s0 s1]]; destruct t; cbn in HS; try contradiction; cbn [mutation_works];
    try (left; exact I);
    try (right; split; [tauto|intros m g Hm; unfold halts; rewrite (HM m g Hm); cbn; halt]);
    try (destruct (nonneg_dec s) as [H|H]; [left; exact H|right; split; [exact H|intros m g Hm; unfold halts; rewrite (HM m g Hm); cbn; rewrite (scale_bad s H); halt]]);
    (destruct (nonneg_dec s0) as [H|H]; [|right; split; [tauto|intros m g Hm; unfold halts; rewrite (HM m g Hm); cbn; rewrite (scale_bad s0 H); halt]]);
    (destruct (nonneg_dec s1) as [H1|H1]; [left; auto|right; split; [tauto|intros m g Hm; unfold halts; rewrite (HM m g Hm); cbn; rewrite (scale_ok s0 H), (scale_bad s1 H1); halt]]).
Qed.

(* ----- the first call of discovery ----- *)
Section First.
Variables (L : learner) (D : denv L) (d : nat).
Hypothesis HT : table d (dX D) (dy D).
Hypothesis HX : dX D <> [].
Hypothesis HP : dpool D = [].
Hypothesis HE : delite D = None.

Lemma first_origins o n g : goes (origins o D n) g (fun xs => length xs = n /\ Forall (fun x => length x = d) xs).
Proof. apply origins_go; auto; [rewrite HP; constructor|rewrite HE; exact I]. Qed.
Lemma new_rules_halt c xs g : (forall x g, halts (init_rule (d_init c) (d_type c) x) g) -> xs <> [] -> halts (mmap (new_rule c D) xs) g.
Proof. intros HI HN. destruct xs as [|x xs]; [congruence|]. cbn [mmap]. apply halts_first. unfold new_rule. apply halts_first. apply HI. Qed.
Lemma es_halts c n kids g : (0 < n)%nat -> space_dim d (d_constraint (es_d c)) -> (0 < es_iter c)%nat -> (0 < es_lambda c)%nat ->
  (forall x g, halts (init_rule (d_init (es_d c)) (d_type (es_d c)) x) g) \/
  (init_works (d_init (es_d c)) (d_type (es_d c)) /\ forall m g, mt m = d_type (es_d c) -> halts (mutate_rule (es_mut c) m) g) ->
  halts (es_optimize c D n kids) g.
Proof.
  intros Hn HS Hi Hl H. unfold es_optimize. eapply halts_then; [apply first_origins|]. intros xs g1 [Hx1 Hx2].
  assert (HN : xs <> []) by (intros ->; cbn in Hx1; lia).
  destruct H as [H|[H H']]; [apply halts_first; apply new_rules_halt; auto|].
  eapply halts_then; [apply (goes_mmap (new_rule (es_d c) D) (fun x => length x = d) (kin L D d (d_type (es_d c)))); [|exact Hx2]|].
  { intros x s Hxl. apply new_rule_goes; auto; rewrite HP; constructor. }
  intros ini g2 [Hini HLi]. apply halts_first.
  destruct ini as [|r ini]; [exfalso; apply HN; destruct xs; [reflexivity|discriminate]|]. apply Forall_cons_iff in Hini as [Hr _].
  destruct n as [|n]; [lia|]. cbn [seq map combine rmap].
  assert (HH : halts (es_loop c D (es_iter c) r []) (kids 0%nat)).
  { destruct (es_iter c) as [|it]; [lia|]. cbn [es_loop]. cbv zeta. apply halts_first. destruct (es_lambda c) as [|lam]; [lia|]. cbn [repeat_m]. apply halts_first.
    unfold mutant. apply halts_first. apply H'. apply Hr. }
  destruct HH as (x & s' & E & Hpx). eapply halts_lift; [|exact Hpx]. unfold es_task at 1. cbn [fst snd]. rewrite E. reflexivity.
Qed.
Lemma rs_halts c n g : (0 < n)%nat -> (0 < rs_generated c)%nat -> (forall x g, halts (init_rule (d_init (rs_d c)) (d_type (rs_d c)) x) g) -> halts (rs_optimize c D n) g.
Proof.
  intros Hn Hg H. unfold rs_optimize. apply halts_first. destruct n as [|n]; [lia|]. cbn [repeat_m]. apply halts_first. unfold rs_one.
  eapply halts_then; [apply first_origins|]. intros xs g1 [Hx1 _]. apply halts_first. apply new_rules_halt; auto. intros ->. cbn in Hx1. lia.
Qed.
End First.

(* ----- fit ----- *)
Section Fails.
Variable L : learner.
Variables (D : discovery L) (C : composition L) (G : logger L) (p : params) (X : matrix) (y : targets) (d0 : dst D) (c0 : cst C) (d : nat).
Hypothesis HD : dnew D X = Ok d0.
Hypothesis HC : cnew C = Ok c0.
Hypothesis HB : cbest C c0 = Ok None.
Hypothesis HL : exists l, linit G = Ok l.
Hypothesis HR : forall n s, (0 < n)%nat -> exists x j d', drun D X y [] None n s d0 = (Raise x, (j, d')) /\ python_exn x = true.
Notation est := (est D C G).
Definition begun (e : est) : Prop := pool e = [] /\ disc e = Some d0 /\ compo e = Some c0 /\ elitist e = Some Placeholder.
Definition ended (e : est) : Prop := is_error e = true /\ is_fitted e = true /\ pool e = [].
Lemma discover_fails n e : begun e -> exists e', discover_safely X y n e = (Ok true, e') /\ ended e'.
Proof.
  intros (H1 & H2 & H3 & _). unfold discover_safely. destruct (Nat.eqb_spec n 0) as [Hn|Hn].
  - unfold catch, raise. cbn [python_exn]. eexists. split; [reflexivity|]. split; [reflexivity|]. split; [reflexivity|exact H1].
  - unfold catch, discover, bind, lift, get, assign, the_disc, best, the_compo. rewrite H3, H2. cbn [of_option rbind]. rewrite HB. cbn [rbind option_map].
    destruct (nth_error (dseeds e) (step e)) as [s|]; cbn [of_option].
    + destruct (HR n s) as (x & j & d' & E & Hx); [lia|]. rewrite H1, E. rewrite Hx. eexists. split; [reflexivity|]. split; [reflexivity|]. split; [reflexivity|exact H1].
    + cbn [python_exn]. eexists. split; [reflexivity|]. split; [reflexivity|]. split; [reflexivity|exact H1].
Qed.
Lemma fit_fails os clean (e : est) : good_data X y -> seedable (random_state p) -> (0 < n_iter p)%nat -> exists e', fit p os clean X y e = (Ok tt, e') /\ ended e'.
Proof.
  intros Hgd Hsd Hit. destruct HL as (l & Hl).
  assert (HPr : exists e0, prepare p os X y e = (Ok tt, e0) /\ begun e0).
  { pose proof (proj2 (check_X_y_ok X y) Hgd) as HXy. destruct (seedable_ok os _ Hsd) as [HS1 HS2]. unfold prepare. do 4 (unfold bind at 1; unfold assign at 1). unfold bind at 1, lift at 1.
    rewrite HXy. unfold bind at 1, lift at 1. rewrite HS1. unfold bind at 1, lift at 1. rewrite HS2. cbv zeta. do 2 (unfold bind at 1; unfold assign at 1).
    unfold bind at 1, lift at 1. rewrite HD. unfold bind at 1, lift at 1. rewrite HC. do 2 (unfold bind at 1; unfold assign at 1). unfold bind at 1, lift at 1. rewrite Hl.
    unfold assign. eexists. split; [reflexivity|]. split; [reflexivity|]. split; [reflexivity|]. split; reflexivity. }
  destruct HPr as (e0 & E0 & H0). unfold fit. rewrite (bind_ok _ _ _ _ _ E0).
  destruct (Nat.ltb_spec 0 (n_initial p)) as [Hlt|Hge].
  - destruct (discover_fails (n_initial p) e0 H0) as (e1 & E1 & H1). rewrite (bind_ok _ _ _ _ _ E1). exists e1. split; [reflexivity|exact H1].
  - rewrite (bind_ok _ _ _ false e0) by reflexivity.
    assert (HM : exists e1, main_loop p X y (seq 0 (n_iter p)) e0 = (Ok true, e1) /\ ended e1).
    { destruct (n_iter p) as [|k]; [lia|]. cbn [seq main_loop]. unfold bind at 1. unfold assign at 1.
      destruct (discover_fails (n_rules p) (set_step 0 e0)) as (e1 & E1 & H1); [exact H0|]. rewrite (bind_ok _ _ _ _ _ E1). exists e1. split; [reflexivity|exact H1]. }
    destruct HM as (e1 & E1 & H1). rewrite (bind_ok _ _ _ _ _ E1). exists e1. split; [reflexivity|exact H1].
Qed.
Lemma ended_gave_up e : d <> 0%nat -> ended e -> gave_up d e.
Proof.
  intros Hd (H1 & H2 & H3). split; [exact H1|]. split; [exact H3|]. intros X' g HX' HL'. assert (HGT : good_table X') by (exists d; auto). apply check_X_ok in HGT.
  unfold predict. rewrite H2. cbn [negb]. unfold bind at 1, lift at 1. rewrite HGT, H1. reflexivity.
Qed.
End Fails.

(* ----- the evolution strategy and random search ----- *)
Lemma logger_begins (L : learner) (G : logger L) : working_logger L G -> exists l, linit G = Ok l.
Proof. induction 1 as [G (H & _)|g|g|G H HW1 (l1 & E1) HW2 (l2 & E2)]; [exact H|eexists; reflexivity|eexists; reflexivity|]. cbn [linit both]. rewrite E1, E2. cbn. eauto. Qed.
Lemma good_of d X y : table d X y -> X <> [] -> d <> 0%nat -> good_data X y.
Proof. intros [H1 H2] HX Hd. split; [exists d; auto|exact H2]. Qed.
Lemma es_decides L rngof c mu k {K} (O : optimizer K) i cc mix f (G : logger L) p os clean X y d (e : est (es_discovery L rngof c k) (shipped_composition L rngof O i cc mix f) G) :
  es_mut c = Mut mu -> init_suits (d_init (es_d c)) (d_type (es_d c)) -> mutation_suits mu (d_type (es_d c)) -> es_sel c <> RRoulette ->
  (es_operator c = EsAnd -> (0 < es_delay c)%nat /\ (es_delay c < es_iter c)%nat) -> (0 < es_iter c)%nat -> (0 < es_lambda c)%nat ->
  working_composer f cc O i -> mixing_works mix -> table d X y -> X <> [] -> d <> 0%nat -> usable (d_accept (es_d c)) -> given_dim d k ->
  seedable (random_state p) -> working_logger L G -> (0 < n_iter p)%nat -> (0 < n_rules p)%nat -> (n_initial p = 0 \/ (step e < n_iter p /\ ~ asks (d_origin (es_d c))))%nat ->
  exists e', fit p os clean X y e = (Ok tt, e') /\ is_fitted e' = true /\
    ((init_works (d_init (es_d c)) (d_type (es_d c)) /\ mutation_works mu (d_type (es_d c))) /\ learned_model d e' \/
     ~ (init_works (d_init (es_d c)) (d_type (es_d c)) /\ mutation_works mu (d_type (es_d c))) /\ gave_up d e').
Proof.
  intros HMu HSi HSm Hsel Hdel Hit Hlam HC HM HT HX Hd HU HG Hs HQ Hn Hr Hini.
  assert (Hbad : (forall x g, halts (init_rule (d_init (es_d c)) (d_type (es_d c)) x) g) \/
    (init_works (d_init (es_d c)) (d_type (es_d c)) /\ forall m g, mt m = d_type (es_d c) -> halts (mutate_rule (es_mut c) m) g) ->
    exists e', fit p os clean X y e = (Ok tt, e') /\ is_fitted e' = true /\ gave_up d e').
  { intros H. destruct (init_bounds_ok X y d HT HX k) as (k' & Ek). pose proof (init_bounds_dim L X y d HT k k' HG Ek) as Hk'.
    set (c1 := mkEs (set_constraint k' (es_d c)) (es_iter c) (es_lambda c) (es_operator c) (es_delay c) (es_mut c) (es_sel c)).
    assert (HNc : es_new c = Ok c). { unfold es_new. destruct (es_operator c) eqn:EO; auto. destruct (Hdel eq_refl) as [_ Hlt]. apply Nat.ltb_lt in Hlt. rewrite Hlt. reflexivity. }
    assert (HN : dnew (es_discovery L rngof c k) X = Ok c1) by (cbn [dnew es_discovery]; rewrite HNc; cbn [rbind]; rewrite Ek; reflexivity).
    destruct (fit_fails L (es_discovery L rngof c k) (shipped_composition L rngof O i cc mix f) G p X y c1 _ HN eq_refl (shipped_starts_empty L rngof K O i cc mix f _ eq_refl) (logger_begins L G HQ)) with (os := os) (clean := clean) (e := e) as (e' & E & HE).
    - intros n s Hn'. cbn [drun es_discovery].
      destruct (es_halts L (discovery_env X y [] None) d HT HX eq_refl eq_refl c1 n (fun j => rngof (child s (spawned s + j))) (rngof (sstream s)) Hn' Hk' Hit Hlam H) as (x & g' & Ex & Hx).
      rewrite Ex. cbn [fst]. eauto.
    - apply (good_of d); assumption.
    - exact Hs.
    - exact Hn.
    - exists e'. split; [exact E|]. split; [apply HE|]. apply ended_gave_up; assumption. }
  destruct (init_either _ _ HSi) as [Hi|[Hi Hi']].
  - destruct (mutation_either _ _ HSm) as [Hm|[Hm Hm']].
    + destruct (fit_succeeds L rngof (es_discovery L rngof c k) k (d_accept (es_d c)) (d_origin (es_d c)) O i cc mix f G p os clean X y d e) as (e' & b & E1 & E2 & E3 & E4 & E5); auto.
      { apply Works_es. constructor; auto. rewrite HMu. exact Hm. }
      exists e'. split; [exact E1|]. split; [exact E3|]. left. split; [auto|]. split; [exact E2|]. split; [eauto|exact E5].
    + destruct Hbad as (e' & E1 & E2 & E3); [right; split; [exact Hi|]; rewrite HMu; exact Hm'|]. exists e'. split; [exact E1|]. split; [exact E2|]. right. split; [tauto|exact E3].
  - destruct Hbad as (e' & E1 & E2 & E3); [left; exact Hi'|]. exists e'. split; [exact E1|]. split; [exact E2|]. right. split; [tauto|exact E3].
Qed.
Lemma rs_decides L rngof c k {K} (O : optimizer K) i cc mix f (G : logger L) p os clean X y d (e : est (rs_discovery L rngof c k) (shipped_composition L rngof O i cc mix f) G) :
  init_suits (d_init (rs_d c)) (d_type (rs_d c)) -> (0 < rs_generated c)%nat ->
  working_composer f cc O i -> mixing_works mix -> table d X y -> X <> [] -> d <> 0%nat -> usable (d_accept (rs_d c)) -> given_dim d k ->
  seedable (random_state p) -> working_logger L G -> (0 < n_iter p)%nat -> (0 < n_rules p)%nat -> (n_initial p = 0 \/ (step e < n_iter p /\ ~ asks (d_origin (rs_d c))))%nat ->
  exists e', fit p os clean X y e = (Ok tt, e') /\ is_fitted e' = true /\
    (init_works (d_init (rs_d c)) (d_type (rs_d c)) /\ learned_model d e' \/ ~ init_works (d_init (rs_d c)) (d_type (rs_d c)) /\ gave_up d e').
Proof.
  intros HSi Hgen HC HM HT HX Hd HU HG Hs HQ Hn Hr Hini. destruct (init_either _ _ HSi) as [Hi|[Hi Hi']].
  - destruct (fit_succeeds L rngof (rs_discovery L rngof c k) k (d_accept (rs_d c)) (d_origin (rs_d c)) O i cc mix f G p os clean X y d e) as (e' & b & E1 & E2 & E3 & E4 & E5); auto.
    { apply Works_rs. constructor; auto. }
    exists e'. split; [exact E1|]. split; [exact E3|]. left. split; [auto|]. split; [exact E2|]. split; [eauto|exact E5].
  - destruct (init_bounds_ok X y d HT HX k) as (k' & Ek). set (c1 := mkRs (set_constraint k' (rs_d c)) (rs_generated c) (rs_sel c)).
    assert (HN : dnew (rs_discovery L rngof c k) X = Ok c1) by (cbn [dnew rs_discovery]; rewrite Ek; reflexivity).
    destruct (fit_fails L (rs_discovery L rngof c k) (shipped_composition L rngof O i cc mix f) G p X y c1 _ HN eq_refl (shipped_starts_empty L rngof K O i cc mix f _ eq_refl) (logger_begins L G HQ)) with (os := os) (clean := clean) (e := e) as (e' & E & HE).
    + intros n s Hn'. cbn [drun rs_discovery].
      destruct (rs_halts L (discovery_env X y [] None) d HT HX eq_refl eq_refl c1 n (rngof (sstream s)) Hn' Hgen Hi') as (x & g' & Ex & Hx).
      rewrite Ex. cbn [fst]. eauto.
    + apply (good_of d); assumption.
    + exact Hs.
    + exact Hn.
    + exists e'. split; [exact E|]. split; [apply HE|]. right. split; [exact Hi|]. apply ended_gave_up; assumption.
Qed.

(* ----- the repository's own configurations ----- *)
Definition suite_ok (x : mtype * mutation * rule_init) : Prop :=
  let '(t, mu, i) := x in init_suits i t /\ mutation_suits mu t /\ if wanted_error t mu i then ~ (init_works i t /\ mutation_works mu t) else init_works i t /\ mutation_works mu t.
Lemma suite_all : Forall suite_ok matching_suite.
Proof.
  unfold matching_suite. repeat (apply Forall_cons; [cbn; repeat split; try exact I; try (intros [A B]; first [exact A|exact B]); discriminate|]). apply Forall_nil.
Qed.
Lemma matching_suite_decided t mu i : In (t, mu, i) matching_suite -> forall (L : learner) rngof f g os clean X y d (e : est (tested_discovery L rngof t mu i) (tested_composition L rngof f) (stdout_logger L g)),
  table d X y -> X <> [] -> d <> 0%nat ->
  exists e', fit tested_params os clean X y e = (Ok tt, e') /\ is_fitted e' = true /\ is_error e' = wanted_error t mu i /\ if wanted_error t mu i then gave_up d e' else learned_model d e'.
Proof.
  intros HIn L rngof f g os clean X y d e HT HX Hd. pose proof suite_all as HA. rewrite Forall_forall in HA. destruct (HA _ HIn) as (H1 & H2 & H3). clear HA HIn.
  destruct (es_decides L rngof (tested_es t mu i) mu default_constraint (ga tested_ga) tt default_ccfg default_mixing f (stdout_logger L g) tested_params os clean X y d e) as (e' & E1 & E2 & E3); auto; try (cbn; lia); try exact I.
  - discriminate.
  - apply Works_ga; cbn; lia.
  - intros H. apply qeq_iff in H. discriminate H.
  - apply Logs_stdout.
  - exists e'. split; [exact E1|]. split; [exact E2|]. cbn in E3. destruct (wanted_error t mu i); destruct E3 as [[A B]|[A B]]; try tauto; split; auto; apply B.
Qed.
Lemma novelty_suite_ok c : In c novelty_suite -> ns_works c /\ d_origin (ns_d c) = SquaredError true /\ d_accept (ns_d c) = Variance 1.
Proof.
  revert c. apply Forall_forall. unfold novelty_suite. repeat (apply Forall_cons; [split; [constructor; cbn; try lia; try (left; reflexivity); try exact I; try discriminate; try (split; discriminate)|split; reflexivity]|]). apply Forall_nil.
Qed.
Lemma novelty_suite_learns c : In c novelty_suite -> forall (L : learner) rngof f g os clean X y d (e : est (ns_discovery L rngof c default_constraint) (default_composition L rngof f) (tested_logger L g)),
  (forall m a, exists q, rfitness L m a = Fin q) -> table d X y -> X <> [] -> d <> 0%nat ->
  exists e', fit ns_params os clean X y e = (Ok tt, e') /\ is_fitted e' = true /\ learned_model d e'.
Proof.
  intros HIn L rngof f g os clean X y d e HF HT HX Hd. destruct (novelty_suite_ok c HIn) as (H1 & H2 & H3).
  destruct (fit_succeeds L rngof (ns_discovery L rngof c default_constraint) default_constraint (d_accept (ns_d c)) (d_origin (ns_d c)) (ga default_ga) tt default_ccfg default_mixing f (tested_logger L g) ns_params os clean X y d e) as (e' & b & E1 & E2 & E3 & E4 & E5); auto; try (cbn; lia); try exact I.
  - apply Works_ns; assumption.
  - apply Works_ga; cbn; lia.
  - rewrite H3. intros H. apply qeq_iff in H. discriminate H.
  - apply Logs_both; [apply Logs_stdout|]. apply Logs_both; [apply Logs_default|]. apply Logs_quiet. split; [eexists; reflexivity|]. split; intros; eexists; reflexivity.
  - exists e'. split; [exact E1|]. split; [exact E3|]. split; [exact E2|]. split; [eauto|exact E5].
Qed.
Definition example_ok (x : example) : Prop :=
  es_works (x_es x) /\ usable (d_accept (es_d (x_es x))) /\ (0 < g_size (x_ga x))%nat /\ (forall f, selection_works f (g_sel (x_ga x))) /\ (forall d, given_dim d (x_constraint x)) /\
  seedable (random_state (x_params x)) /\ (0 < n_iter (x_params x))%nat /\ (0 < n_rules (x_params x))%nat /\ n_initial (x_params x) = 0%nat.
Lemma example_with op n l dl mu beta k gc p pr : (op = EsAnd -> (0 < dl)%nat /\ (dl < n)%nat) -> 0 <= mu -> ~ beta == 0 -> (0 < g_size gc)%nat -> (forall f, selection_works f (g_sel gc)) -> (forall d, given_dim d k) ->
  seedable (random_state pr) -> (0 < n_iter pr)%nat -> (0 < n_rules pr)%nat -> n_initial pr = 0%nat -> example_ok (mkExample (es_with op n l dl mu beta) k gc p pr).
Proof. intros. unfold example_ok, es_with. cbn. split; [constructor; cbn; auto; discriminate|]. auto 10. Qed.
Lemma examples_all : Forall example_ok examples.
Proof.
  unfold examples.
  repeat (apply Forall_cons;
    [first [apply example_with; [first [discriminate|intros _; lia]|discriminate|intros H; apply qeq_iff in H; discriminate H|cbn; lia|intros f; cbn; lia|intros d; exact I|cbn; try exact I; try lia|cbn; lia|cbn; lia|reflexivity]
           |split; [exact default_es_works|]; split; [intros H; apply qeq_iff in H; discriminate H|]; split; [cbn; lia|]; split; [intros f; cbn; lia|]; split; [intros d; exact I|]; split; [exact I|]; split; [cbn; lia|]; split; [cbn; lia|reflexivity]]|]).
  apply Forall_nil.
Qed.
Lemma examples_learn x : In x examples -> forall (L : learner) rngof f (G : logger L) os clean X y d (e : est (example_discovery L rngof x) (example_composition L rngof x f) G),
  working_logger L G -> table d X y -> X <> [] -> d <> 0%nat ->
  exists e', fit (x_params x) os clean X y e = (Ok tt, e') /\ is_fitted e' = true /\ learned_model d e'.
Proof.
  intros HIn L rngof f G os clean X y d e HQ HT HX Hd. pose proof examples_all as HA. rewrite Forall_forall in HA. destruct (HA x HIn) as (H1 & H2 & H3 & H4 & H5 & H6 & H7 & H8 & H9). clear HA.
  destruct (fit_succeeds L rngof (example_discovery L rngof x) (x_constraint x) (d_accept (es_d (x_es x))) (d_origin (es_d (x_es x))) (ga (x_ga x)) tt (mkCcfg (RandomInit (x_p x)) true true) default_mixing f G (x_params x) os clean X y d e) as (e' & b & E1 & E2 & E3 & E4 & E5); auto.
  - apply Works_es. exact H1.
  - apply Works_ga; auto.
  - exact I.
  - exists e'. split; [exact E1|]. split; [exact E3|]. split; [exact E2|]. split; [eauto|exact E5].
Qed.
