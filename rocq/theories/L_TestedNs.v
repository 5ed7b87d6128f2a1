(* Novelty search whose initialisation, crossover or mutation always raises. *)
From Coq Require Import Permutation Lia.
From Verif Require Import PyNum PyList PyMon PyRng L_Num L_List L_Rng M_Matching S_Matching M_Rule S_Rule M_RuleGen L_RuleGen M_Mixing M_Discovery S_Discovery L_Discovery L_DiscoveryProps L_SasProps L_SafeFit
  M_Novelty S_Novelty L_Novelty L_NoveltyNum L_NoveltyScore L_NoveltyProps L_NoveltyRun M_Solution M_Composition M_GenomeOps M_GA M_Fit S_Fit L_Fit L_FitProps M_Shipped S_Shipped L_ShippedFit M_Logging M_Defaults
  S_Live L_LiveDisc L_LiveNs L_LiveFit L_LiveEx M_Tested S_Tested L_Tested.
From Coq Require Import Lqa.

Lemma halts_ok {S A B} (m : St S A) (k : A -> St S B) s a s' : m s = (Ok a, s') -> halts (k a) s' -> halts (bind m k) s.
Proof. intros E H. unfold halts. rewrite (bind_ok _ _ _ _ _ E). exact H. Qed.
Lemma halts_on {L A} (m : St rng A) (st : nst L) : halts m (gen st) -> halts (on_rng L m) st.
Proof. intros (x & g & E & H). eexists x, _. unfold on_rng. rewrite E. split; [reflexivity|exact H]. Qed.
(* two rules are chosen from two or more *)
Lemma select_two {A} (fit err : A -> num) (vol : A -> Q) same s (rs : list A) n g : s <> RRoulette -> (2 <= length rs)%nat -> (2 <= n)%nat ->
  goes (select_rules fit err vol same s rs n) g (fun out => (2 <= length out)%nat).
Proof.
  intros HS HL Hn. assert (HN : rs <> []) by (intros ->; cbn in HL; lia). destruct s; cbn [select_rules]; [|congruence| |].
  - apply goes_ret. unfold fittest_n. rewrite firstn_length, (Permutation_length (sort_desc_perm _ rs)). lia.
  - destruct (front_nonempty err vol same rs HN) as (c & Hc & Hcn). eapply goes_bind with (Q := fun c => c <> []); [eapply goes_lift; [exact Hc|exact Hcn]|].
    intros c' g1 Hc'. eapply goes_post; [apply goes_choices; exact Hc'|]. intros a [E _]. lia.
  - eapply goes_post; [apply goes_choices; exact HN|]. intros a [E _]. lia.
Qed.
Lemma crossing_either rate t : crossing_suits rate t -> crossing_works rate t \/ (~ crossing_works rate t /\ forall a b g, halts (M_Novelty.crossover rate t a b) g).
Proof.
  intros HS. destruct t; try (left; left; reflexivity).
  all: destruct HS as [HS|[HS|HS]]; [discriminate|left; right; exact HS|right; split; [intros [H|H]; [discriminate|lra]|]].
  all: intros a b g; unfold M_Novelty.crossover, halts, bind; destruct (random g) as [u g1] eqn:E;
    assert (Hu : u < 1) by (unfold random in E; injection E as <- _; apply u01_range);
    destruct (qlt_spec u rate) as [_|H]; [|lra]; eexists _, _; split; reflexivity.
Qed.

Section First.
Variable L : learner.
Variable D : denv L.
Variable d : nat.
Hypothesis HT : table d (dX D) (dy D).
Hypothesis HX : dX D <> [].
Hypothesis HP : dpool D = [].
Hypothesis HE : delite D = None.
Notation inv := (L_NoveltyRun.inv L D d).
Lemma alloc_halts {A} (f : A -> St rng (rule L)) a l st : (forall g, halts (f a) g) -> halts (mmap (fun a => let* r := on_rng L (f a) in alloc L r) (a :: l)) st.
Proof. intros H. cbn [mmap]. apply halts_first, halts_first, halts_on, H. Qed.
Lemma population_halts c st : (0 < ns_mu c)%nat -> (forall x g, halts (init_rule (d_init (ns_d c)) (d_type (ns_d c)) x) g) -> halts (M_Novelty.init_population L c D) st.
Proof.
  intros Hm H. unfold M_Novelty.init_population. destruct (goes_on L _ st _ (first_origins L D d HT HX HP HE (d_origin (ns_d c)) (ns_mu c) (gen st))) as (xs & g' & E & HL & _).
  apply (halts_ok _ _ _ _ _ E). destruct xs as [|x xs]; [cbn in HL; lia|]. apply alloc_halts. intros g. unfold new_rule. apply halts_first, H.
Qed.
Lemma population_goes c st : (0 < ns_mu c)%nat -> space_dim d (d_constraint (ns_d c)) -> init_works (d_init (ns_d c)) (d_type (ns_d c)) -> inv st ->
  exists pop s1, M_Novelty.init_population L c D st = (Ok pop, s1) /\ inv s1 /\ Forall (typed L (d_type (ns_d c)) s1) pop /\ length pop = ns_mu c.
Proof.
  intros Hm HS HW HI. unfold M_Novelty.init_population. destruct (goes_on L _ st _ (first_origins L D d HT HX HP HE (d_origin (ns_d c)) (ns_mu c) (gen st))) as (xs & g' & E & HL & HXd). rewrite (bind_ok _ _ _ _ _ E).
  destruct (alloc_all_goes L D d (new_rule (ns_d c) D) (fun x => length x = d) (d_type (ns_d c))) with (l := xs) (st := mkNst (cells st) (arch st) g') as (ids & st' & E2 & I2 & _ & T2 & HL2).
  - intros x g Hx. apply new_rule_goes; auto; try (rewrite HP; constructor); try (rewrite HE; exact I).
  - exact HXd.
  - exact HI.
  - exists ids, st'. split; [exact E2|]. split; [exact I2|]. split; [exact T2|congruence].
Qed.
Lemma parents_two c pop st : ns_sel c <> RRoulette -> (2 <= length pop)%nat -> (2 <= ns_lambda c)%nat -> Forall (live st) pop ->
  exists ps st', select_parents L c pop st = (Ok ps, st') /\ (2 <= length ps)%nat.
Proof.
  intros HS HN Hl HL. unfold select_parents. destruct (crules_total L st pop HL) as (rs & E & HLn). rewrite (bind_ok _ _ _ _ _ E).
  destruct (goes_on L _ st _ (select_two (fun k : nat * rule L => rfit (snd k)) (fun k => rerr (snd k)) (fun k => rule_volume L (snd k)) (fun a b => Nat.eqb (fst a) (fst b)) (ns_sel c) rs (ns_lambda c) (gen st) HS ltac:(lia) Hl)) as (ks & g' & E2 & Hk).
  rewrite (bind_ok _ _ _ _ _ E2). unfold on_rng. destruct (shuffle (map fst ks) _) as [l g2] eqn:Es. exists l. eexists. split; [reflexivity|].
  pose proof (shuffle_perm (map fst ks) (gen (mkNst (cells st) (arch st) g'))) as HPm. rewrite Es in HPm. apply Permutation_length in HPm. cbn [fst] in HPm. rewrite map_length in HPm. lia.
Qed.
Lemma children_halt c ps st : (2 <= length ps)%nat -> Forall (typed L (d_type (ns_d c)) st) ps ->  inv st ->
  (forall a b g, halts (M_Novelty.crossover (ns_rate c) (d_type (ns_d c)) a b) g) \/
  (crossing_works (ns_rate c) (d_type (ns_d c)) /\ forall m g, mt m = d_type (ns_d c) -> halts (mutate_rule (ns_mut c) m) g) ->
  halts (make_children L c D ps) st.
Proof.
  intros HL HTy HI H. set (t := d_type (ns_d c)) in *. destruct ps as [|i [|j ps]]; try (cbn in HL; lia). unfold make_children. change (d_type (ns_d c)) with t. cbn [M_Novelty.pairs mmap fst snd].
  pose proof HTy as HT0. apply Forall_cons_iff in HT0 as [(ca & Ea & Ta) HT0]. apply Forall_cons_iff in HT0 as [(cb & Eb & Tb) HTr].
  assert (Ca : cell_of L i st = (Ok ca, st)) by (unfold cell_of; rewrite Ea; reflexivity). assert (Cb : cell_of L j st = (Ok cb, st)) by (unfold cell_of; rewrite Eb; reflexivity).
  destruct H as [H|[H1 H2]].
  - apply halts_first. apply halts_first. apply (halts_ok _ _ _ _ _ Ca). apply (halts_ok _ _ _ _ _ Cb). apply halts_on, H.
  - assert (HG : forall l s, cells s = cells st -> Forall (fun p : nat * nat => typed L t st (fst p) /\ typed L t st (snd p)) l ->
      exists conds s', mmap (fun p => let* a := cell_of L (fst p) in let* b := cell_of L (snd p) in on_rng L (M_Novelty.crossover (ns_rate c) t (cond (crule a)) (cond (crule b)))) l s = (Ok conds, s')).
    { clear - HI H1. induction l as [|[a b] l IH]; intros s HC HLl; [exists [], s; reflexivity|].
      apply Forall_cons_iff in HLl as [[(ca & Ea & Ta) (cb & Eb & Tb)] HLl]. cbn [fst snd] in *.
      assert (La : length (bnd (cond (crule ca))) = d) by (destruct HI as [HO _]; exact (proj2 (allok_cell L D d _ _ _ (okheap_allok L D d _ HO) Ea))).
      assert (Lb : length (bnd (cond (crule cb))) = d) by (destruct HI as [HO _]; exact (proj2 (allok_cell L D d _ _ _ (okheap_allok L D d _ HO) Eb))).
      destruct (crossover_goes (ns_rate c) t (cond (crule ca)) (cond (crule cb)) (gen s) H1) as (cs & g2 & E & _); [congruence|congruence|].
      destruct (IH (mkNst (cells s) (arch s) g2)) as (conds & s' & E2); [exact HC|exact HLl|]. exists (cs :: conds), s'. cbn [mmap fst snd].
      rewrite (bind_ok _ _ _ cs (mkNst (cells s) (arch s) g2)); [rewrite (bind_ok _ _ _ _ _ E2); reflexivity|].
      rewrite (bind_ok _ _ _ ca s) by (unfold cell_of; rewrite HC, Ea; reflexivity). rewrite (bind_ok _ _ _ cb s) by (unfold cell_of; rewrite HC, Eb; reflexivity). unfold on_rng. rewrite E. reflexivity. }
    assert (La : length (bnd (cond (crule ca))) = d) by (destruct HI as [HO _]; exact (proj2 (allok_cell L D d _ _ _ (okheap_allok L D d _ HO) Ea))).
    assert (Lb : length (bnd (cond (crule cb))) = d) by (destruct HI as [HO _]; exact (proj2 (allok_cell L D d _ _ _ (okheap_allok L D d _ HO) Eb))).
    assert (HC1 : exists m0 cs g2, M_Novelty.crossover (ns_rate c) t (cond (crule ca)) (cond (crule cb)) (gen st) = (Ok (m0 :: cs), g2) /\ mt m0 = t).
    { destruct (crossover_goes (ns_rate c) t (cond (crule ca)) (cond (crule cb)) (gen st) H1) as (cs & g2 & E & Hcs); [congruence|congruence|].
      destruct cs as [|m0 cs]; [exfalso|apply Forall_cons_iff in Hcs as [Hm _]; exists m0, cs, g2; split; [exact E|congruence]].
      unfold M_Novelty.crossover in E. destruct (bind_inv _ _ _ _ _ E) as (u & g3 & _ & E'). destruct (qlt u (ns_rate c)); [|discriminate E'].
      unfold uniform_crossover in E'. destruct t; try discriminate E'. apply bind_inv in E' as (k1 & g4 & _ & E'). apply bind_inv in E' as (k2 & g5 & _ & E'). apply bind_inv in E' as (k3 & g6 & _ & E'). discriminate E'. }
    destruct HC1 as (m0 & cs & g2 & E & Hm). set (s1 := mkNst (cells st) (arch st) g2).
    destruct (HG (M_Novelty.pairs ps) s1 eq_refl) as (conds & s' & E2).
    { apply Forall_forall. intros p Hp. apply pairs_in in Hp as [A1 A2]. rewrite Forall_forall in HTr. auto. }
    eapply halts_ok.
    + rewrite (bind_ok _ _ _ (m0 :: cs) s1); [rewrite (bind_ok _ _ _ _ _ E2); reflexivity|]. rewrite (bind_ok _ _ _ _ _ Ca), (bind_ok _ _ _ _ _ Cb). unfold on_rng. rewrite E. reflexivity.
    + cbn [concat]. cbn [app]. apply (alloc_halts (fun m => mutant (ns_d c) (ns_mut c) D (fresh_rule L m))). intros g. unfold mutant. apply halts_first. apply H2. exact Hm.
Qed.
Lemma ns_halts c n st : space_dim d (d_constraint (ns_d c)) -> (0 < ns_iter c)%nat -> (2 <= ns_mu c)%nat -> (2 <= ns_lambda c)%nat -> ns_sel c <> RRoulette -> inv st ->
  (forall x g, halts (init_rule (d_init (ns_d c)) (d_type (ns_d c)) x) g) \/
  (init_works (d_init (ns_d c)) (d_type (ns_d c)) /\
   ((forall a b g, halts (M_Novelty.crossover (ns_rate c) (d_type (ns_d c)) a b) g) \/
    (crossing_works (ns_rate c) (d_type (ns_d c)) /\ forall m g, mt m = d_type (ns_d c) -> halts (mutate_rule (ns_mut c) m) g))) ->
  halts (ns_run c D n) st.
Proof.
  intros HS Hi Hm Hl Hsel HI H. unfold ns_run. destruct H as [H|[H1 H2]]; [apply halts_first, population_halts; [lia|exact H]|].
  destruct (population_goes c st ltac:(lia) HS H1 HI) as (pop & s1 & E & I1 & T1 & HL). apply (halts_ok _ _ _ _ _ E). apply halts_first.
  destruct (ns_iter c) as [|k]; [lia|]. cbn [ns_loop].
  assert (HLv : Forall (live s1) pop) by (revert T1; apply Forall_impl; intros i; apply typed_live).
  destruct (parents_two c pop s1 Hsel ltac:(lia) Hl HLv) as (ps & s2 & E2 & Hp). apply (halts_ok _ _ _ _ _ E2).
  apply (select_parents_ok L D d) in E2 as (I2 & X2 & P2); [|exact I1].
  assert (HC : halts (make_children L c D ps) s2).
  { apply children_halt; auto. apply Forall_forall. intros i Hin. rewrite Forall_forall in T1. eapply (ext_typed L); [exact X2|auto]. }
  destruct ps as [|p ps]; [cbn in Hp; lia|]. apply halts_first. exact HC.
Qed.
End First.

Lemma ns_decides L rngof c mu k {K} (O : optimizer K) i cc mix f (G : logger L) p os clean X y d (e : est (ns_discovery L rngof c k) (shipped_composition L rngof O i cc mix f) G) :
  (forall m a, exists q, rfitness L m a = Fin q) ->
  ns_mut c = Mut mu -> init_suits (d_init (ns_d c)) (d_type (ns_d c)) -> crossing_suits (ns_rate c) (d_type (ns_d c)) -> mutation_suits mu (d_type (ns_d c)) -> ns_sel c <> RRoulette ->
  (0 < ns_iter c)%nat -> (2 <= ns_mu c)%nat -> (ns_k c + 2 < ns_lambda c)%nat -> type_ok (ns_type c) ->
  working_composer f cc O i -> mixing_works mix -> table d X y -> X <> [] -> d <> 0%nat -> usable (d_accept (ns_d c)) -> given_dim d k ->
  seedable (random_state p) -> working_logger L G -> (0 < n_iter p)%nat -> (0 < n_rules p)%nat -> (n_initial p = 0 \/ (step e < n_iter p /\ ~ asks (d_origin (ns_d c))))%nat ->
  let good := init_works (d_init (ns_d c)) (d_type (ns_d c)) /\ crossing_works (ns_rate c) (d_type (ns_d c)) /\ mutation_works mu (d_type (ns_d c)) in
  exists e', fit p os clean X y e = (Ok tt, e') /\ is_fitted e' = true /\ (good /\ learned_model d e' \/ ~ good /\ gave_up d e').
Proof.
  intros HF HMu HSi HSc HSm Hsel Hit Hmu Hk HTy HC HM HT HX Hd HU HG Hs HQ Hn Hr Hini good.
  assert (Hbad : (forall x g, halts (init_rule (d_init (ns_d c)) (d_type (ns_d c)) x) g) \/
    (init_works (d_init (ns_d c)) (d_type (ns_d c)) /\
     ((forall a b g, halts (M_Novelty.crossover (ns_rate c) (d_type (ns_d c)) a b) g) \/
      (crossing_works (ns_rate c) (d_type (ns_d c)) /\ forall m g, mt m = d_type (ns_d c) -> halts (mutate_rule (ns_mut c) m) g))) ->
    exists e', fit p os clean X y e = (Ok tt, e') /\ is_fitted e' = true /\ gave_up d e').
  { intros H. destruct (init_bounds_ok X y d HT HX k) as (k' & Ek). pose proof (init_bounds_dim L X y d HT k k' HG Ek) as Hk'.
    assert (HNc : ns_new c = Ok c) by (unfold ns_new; apply Nat.ltb_lt in Hk; rewrite Hk; reflexivity).
    assert (HN : dnew (ns_discovery L rngof c k) X = Ok (with_constraint k' c, [])) by (cbn [dnew ns_discovery]; rewrite HNc; cbn [rbind]; rewrite Ek; reflexivity).
    destruct (fit_fails L (ns_discovery L rngof c k) (shipped_composition L rngof O i cc mix f) G p X y (with_constraint k' c, []) _ HN eq_refl (shipped_starts_empty L rngof K O i cc mix f _ eq_refl) (logger_begins L G HQ)) with (os := os) (clean := clean) (e := e) as (e' & E & HE).
    - intros n s Hn'. cbn [drun ns_discovery fst snd]. unfold ns_optimize. cbn [map length seq].
      destruct (ns_halts L (discovery_env X y [] None) d HT HX eq_refl eq_refl (with_constraint k' c) n (mkNst [] [] (rngof (sstream s))) Hk' Hit Hmu ltac:(cbn; lia) Hsel) as (x & g' & Ex & Hx).
      + split; constructor.
      + exact H.
      + change (mkDenv X y [] (delite (discovery_env X y [] None)) (dmix (discovery_env X y [] None))) with (discovery_env (L := L) X y [] None). rewrite Ex. cbn [fst]. eauto.
    - apply (good_of d); assumption.
    - exact Hs.
    - exact Hn.
    - exists e'. split; [exact E|]. split; [apply HE|]. apply ended_gave_up; assumption. }
  assert (HB : forall (b : Prop), ~ good -> (exists e', fit p os clean X y e = (Ok tt, e') /\ is_fitted e' = true /\ gave_up d e') ->
    exists e', fit p os clean X y e = (Ok tt, e') /\ is_fitted e' = true /\ (good /\ learned_model d e' \/ ~ good /\ gave_up d e')) by (intros _ Hg (e' & E1 & E2 & E3); eauto 8).
  destruct (init_either _ _ HSi) as [Hi|[Hi Hi']]; [|apply (HB True); [unfold good; tauto|apply Hbad; left; exact Hi']].
  destruct (crossing_either _ _ HSc) as [Hc|[Hc Hc']]; [|apply (HB True); [unfold good; tauto|apply Hbad; right; split; [exact Hi|left; exact Hc']]].
  destruct (mutation_either _ _ HSm) as [Hm|[Hm Hm']]; [|apply (HB True); [unfold good; tauto|apply Hbad; right; split; [exact Hi|right; split; [exact Hc|rewrite HMu; exact Hm']]]].
  destruct (fit_succeeds L rngof (ns_discovery L rngof c k) k (d_accept (ns_d c)) (d_origin (ns_d c)) O i cc mix f G p os clean X y d e) as (e' & b & E1 & E2 & E3 & E4 & E5); auto.
  { apply Works_ns; [|exact HF]. constructor; auto; [rewrite HMu; exact Hm|lia]. }
  exists e'. split; [exact E1|]. split; [exact E3|]. left. split; [unfold good; auto|]. split; [exact E2|]. split; [eauto|exact E5].
Qed.
