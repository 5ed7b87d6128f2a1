(* Whole runs of the shipped optimizers (C21, C22). *)
From Coq Require Import Lia Permutation.
From Verif Require Import PyNum PyList PyMon PyRng PyStat L_Num L_List L_Rng M_Matching M_Rule L_RuleProps M_Mixing L_Mixing M_Solution S_Solution
  L_Heap L_HeapProps M_Composition S_Composition L_Safe L_SafeFit L_Composition L_History M_GenomeOps S_GenomeOps L_GenomeOps L_GenomeProps
  M_GA L_GA M_Saga L_Saga M_Sas L_Sas L_SasProps L_SagaProps L_Held M_Aco L_Aco M_Abc L_Abc M_Swarm L_Swarm S_Optimizers L_SwarmProps.

Lemma shipped_contract {K} (O : optimizer K) i : shipped O i -> exists Iok, contract O Iok /\ Iok i 0%nat.
Proof.
  intros H. destruct H.
  - eexists; split; [apply ga_contract|exact I].
  - eexists; split; [apply rs_contract|exact I].
  - eexists; split; [apply saga1_contract; auto|exact I].
  - eexists; split; [apply saga2_contract; auto|exact I].
  - eexists; split; [apply saga3_contract; auto|exact I].
  - eexists; split; [apply sas_contract; auto|exact I].
  - eexists; split; [eapply aco_contract; [apply binary_ok|apply binary_map_id]|exact I].
  - eexists; split; [eapply aco_contract; [apply complete_ok|apply complete_map_id]|exact I].
  - eexists; split; [apply bees_contract|exact I].
  - eexists; split; [apply swarm_contract|exact I].
  - eexists; split; [apply wolves_contract|exact I].
Qed.
Lemma subpopulation_ok {L} bits (pool : list (rule L)) : length bits = length pool -> exists rs, subpopulation L bits pool = Ok rs.
Proof. intros H. unfold subpopulation. rewrite H, Nat.eqb_refl. cbn. eauto. Qed.
Lemma honest_fits_pool {K L} (E : env L) (s : hst K) r : honest E s r -> fits_the_pool E s r.
Proof.
  intros (b & a & g & g' & HS & HL & _). destruct (subpopulation_ok b (epool E) HL) as (rs & Hrs). exists b, a, rs. auto.
Qed.
Lemma shipped_fits {K L} (O : optimizer K) i c (steps : list (env L * rng)) E g g0 : shipped O i -> one_fit (steps ++ [(E, g)]) ->
  match compose O c (steps ++ [(E, g)]) (fresh_comp O i) (mkH [] [] g0) with
  | (Ok st, s) => Forall (fits_the_pool E s) (cpop st ++ carch st) /\ Forall (honest E s) (cpop st ++ carch st)
  | (Raise e, _) => e <> AssertionError /\ e <> Dangling
  end.
Proof.
  intros HS HF. destruct (shipped_contract O i HS) as (Iok & HC & HI). pose proof (history_fits O Iok HC c steps E g i g0 HI HF) as H.
  destruct (compose O c (steps ++ [(E, g)]) (fresh_comp O i) (mkH [] [] g0)) as [[st|e] s]; [|apply not_bad_and; auto].
  destruct H as (_ & H1 & H2 & _). assert (HA : Forall (honest E s) (cpop st ++ carch st)) by (apply Forall_app; auto).
  split; auto. revert HA. apply Forall_impl. intros r. apply honest_fits_pool.
Qed.
Lemma shipped_best {K L} (O : optimizer K) i c (steps : list (env L * rng)) E g g0 st s : shipped O i -> one_fit (steps ++ [(E, g)]) -> never_nan E ->
  compose O c (steps ++ [(E, g)]) (fresh_comp O i) (mkH [] [] g0) = (Ok st, s) -> cpop st <> [] ->
  exists r f, elitist st s = (Ok (Some r), s) /\ best_of s (cpop st ++ carch st) r f.
Proof.
  intros HS HF HN HE HP. destruct (shipped_contract O i HS) as (Iok & HC & HI). pose proof (history_fits O Iok HC c steps E g i g0 HI HF) as H.
  rewrite HE in H. eapply after_elitist; eauto.
Qed.
Lemma shipped_never_worse {K L} (O : optimizer K) i c (steps : list (env L * rng)) E1 g1 later g0 st1 s1 st2 s2 r1 r2 f1 f2 :
  shipped O i -> carchive c = true -> deterministic (emix E1) -> never_nan E1 -> size_free E1 ->
  one_fit (steps ++ [(E1, g1)] ++ later) ->
  compose O c (steps ++ [(E1, g1)]) (fresh_comp O i) (mkH [] [] g0) = (Ok st1, s1) ->
  compose O c (steps ++ [(E1, g1)] ++ later) (fresh_comp O i) (mkH [] [] g0) = (Ok st2, s2) ->
  elitist st1 s1 = (Ok (Some r1), s1) -> elitist st2 s2 = (Ok (Some r2), s2) -> has_fit s1 r1 f1 -> has_fit s2 r2 f2 -> nle f1 f2 = true.
Proof.
  intros HS. destruct (shipped_contract O i HS) as (Iok & HC & HI). eapply never_worse; eauto.
Qed.

(* ----- population lengths ----- *)
Lemma iterate_keep {K A} (f : A -> HSt K A) (P : A -> Prop) k : (forall a s a' s', P a -> f a s = (Ok a', s') -> P a') ->
  forall a s a' s', P a -> iterate k f a s = (Ok a', s') -> P a'.
Proof.
  intros HF. induction k as [|k IH]; intros a s a' s' HP H; cbn [iterate] in H; [injection H as <- _; auto|].
  apply bind_inv in H as (a1 & s1 & H1 & H). eapply IH; [|exact H]. eapply HF; eauto.
Qed.
Lemma greedy_len news : forall fs s fs' s', greedy_update news fs s = (Ok fs', s') -> length fs' = length fs.
Proof.
  induction news as [|n news IH]; intros [|f fs] s fs' s' H; cbn [greedy_update] in H; try (injection H as <- _; reflexivity).
  apply bind_inv in H as (fn & s1 & _ & H). apply bind_inv in H as (fo & s2 & _ & H). apply bind_inv in H as (rest & s3 & H1 & H).
  injection H as <- _. cbn. f_equal. eauto.
Qed.
Lemma keeps_length {K L} (O : optimizer K) (E : env L) ini pop i s pop' i' s' : keeps_size O ->
  orun O L E ini pop i s = (Ok (pop', i'), s') -> length pop' = length pop.
Proof.
  intros HO. destruct HO; cbn [orun aco bees swarm wolves] in *; intros H.
  - unfold aco_run in H. apply bind_inv in H as (p & s1 & _ & H). apply bind_inv in H as (p1 & s2 & H1 & H). apply fit_all_len in H1.
    apply bind_inv in H as (z & s3 & H2 & H). injection H as <- _ _. rewrite <- H1.
    apply (iterate_keep _ (fun z => length (fst z) = length p1)) in H2; auto.
    intros [q ph] t [q' ph'] t' HQ HX. unfold aco_step in HX. apply bind_inv in HX as (? & ? & _ & HX). apply bind_inv in HX as (? & ? & _ & HX).
    cbv zeta in HX. apply bind_inv in HX as (? & ? & _ & HX). apply bind_inv in HX as (? & ? & _ & HX). injection HX as <- _ _. exact HQ.
  - unfold bee_run in H. apply bind_inv in H as (p1 & s2 & H1 & H). apply fit_all_len in H1.
    apply bind_inv in H as (fs & s3 & H2 & H). injection H as <- _ _. rewrite map_length, <- H1.
    apply (iterate_keep _ (fun z => length z = length p1)) in H2; [auto| |apply map_length].
    intros q t q' t' HQ HX. unfold bee_step in HX. apply bind_inv in HX as (o1 & ? & _ & HX). apply bind_inv in HX as (fs1 & ? & HB1 & HX).
    apply bind_inv in HX as (? & ? & _ & HX). cbv zeta in HX. apply bind_inv in HX as (? & ? & _ & HX). apply bind_inv in HX as (fs2 & ? & HB2 & HX).
    apply mmap_len in HX. unfold bee_phase in HB1, HB2. apply bind_inv in HB1 as (? & ? & _ & HB1). apply bind_inv in HB2 as (? & ? & _ & HB2).
    apply greedy_len in HB1. apply greedy_len in HB2. congruence.
  - unfold swarm_run in H. apply bind_inv in H as (p1 & s2 & H1 & H). apply fit_all_len in H1.
    destruct (Nat.eqb (ps_iter c) 0); [discriminate|]. apply bind_inv in H as (? & ? & _ & H). apply bind_inv in H as (? & ? & _ & H).
    injection H as <- _ _. exact H1.
  - unfold wolf_run in H. apply bind_inv in H as (p1 & s2 & H1 & H). apply fit_all_len in H1.
    destruct (Nat.eqb (w_iter c) 0); [discriminate|]. apply bind_inv in H as (z & s3 & H2 & H). injection H as <- _ _. rewrite <- H1.
    apply (iterate_keep _ (fun z => length (fst z) = length p1)) in H2; auto.
    intros [q a] t [q' a'] t' HQ HX. unfold wolf_step in HX. apply bind_inv in HX as (? & ? & _ & HX). apply bind_inv in HX as (m & ? & HM & HX).
    apply bind_inv in HX as (m' & ? & HF & HX). injection HX as <- _ _. apply mmap_len in HM. apply fit_all_len in HF. cbn [fst] in *. congruence.
Qed.
Lemma step_keeps_length {K L} (O : optimizer K) c (E : env L) g (st st' : comp O) s s' : keeps_size O -> cwarm c = true ->
  epool E <> [] -> cpop st <> [] -> optimize O c E g st s = (Ok st', s') -> length (cpop st') = length (cpop st).
Proof.
  intros HO HW HP HN H. unfold optimize in H. apply bind_inv in H as (? & ? & _ & H). cbv beta zeta in H.
  apply bind_inv in H as (pop & ? & HI & H). apply bind_inv in H as (? & s1 & _ & H).
  destruct (epool E) as [|p ps] eqn:EP; [congruence|]. apply bind_inv in H as ([pop' i'] & s2 & H1 & H).
  apply bind_inv in H as (? & ? & _ & H). injection H as <- _. cbn [cpop]. apply keeps_length in H1; auto. rewrite H1.
  unfold init_population in HI. rewrite HW in HI. destruct (cpop st) as [|r rs]; [congruence|]. cbn [negb orb] in HI. apply mmap_len in HI. exact HI.
Qed.
Lemma compose_keeps_length {K L} (O : optimizer K) c (steps : list (env L * rng)) : keeps_size O -> cwarm c = true ->
  forall (st st' : comp O) s s', length (cpop st) = 1%nat -> compose O c steps st s = (Ok st', s') -> length (cpop st') = 1%nat.
Proof.
  intros HO HW. induction steps as [|[E g] steps IH]; intros st st' s s' HL H; cbn [compose] in H; [injection H as <- _; auto|].
  apply bind_inv in H as (st1 & s1 & H1 & H). eapply IH; [|exact H]. destruct (epool E) eqn:EP.
  - eapply empty_pool_one; eauto.
  - rewrite <- HL. eapply step_keeps_length; eauto; [congruence|]. intros HN. rewrite HN in HL. discriminate.
Qed.
Lemma stays_alone {K L} (O : optimizer K) c (E0 : env L) g0 steps : keeps_size O -> cwarm c = true -> epool E0 = [] ->
  forall (st st' : comp O) s s', compose O c ((E0, g0) :: steps) st s = (Ok st', s') -> length (cpop st') = 1%nat.
Proof.
  intros HO HW HP st st' s s' H. cbn [compose] in H. apply bind_inv in H as (st1 & s1 & H1 & H). apply empty_pool_one in H1 as [H1 _]; auto.
  eapply compose_keeps_length; eauto.
Qed.

(* ----- examples ----- *)
Definition same_math : smath := mkSmath (fun x => x) (fun x => x).
Definition a_tape : rng := mkRng (fun i => qofnat i * (3 # 7) + (1 # 9)) 0.
(* the best fitness and how the pool grows in the examples *)
Definition one_rule (f : Q -> nat -> nat -> num) : env mean_learner := mkEnv (firstn 1 (epool ex_env)) (eX ex_env) (ey ex_env) (emix ex_env) f.
(* the fitness of the elitist, computed *)
Definition fit_of {K} (s : hst K) (r : nat) : option num :=
  match nth_error (sols s) r with
  | Some o => match nth_error (garr s) (gref o) with Some _ => option_map sfitness (satt o) | None => None end
  | None => None
  end.
Lemma fit_of_has {K} (s : hst K) r f : fit_of s r = Some f -> has_fit s r f.
Proof.
  intros H. unfold fit_of in H. destruct (nth_error (sols s) r) as [o|] eqn:E1; [|discriminate]. destruct (nth_error (garr s) (gref o)) as [b|] eqn:E2; [|discriminate].
  destruct (satt o) as [a|] eqn:E3; [|discriminate]. injection H as <-. exists b, a. split; [|reflexivity]. exists o. auto.
Qed.
Definition elite_fit {K} {O : optimizer K} (r : res (comp O) * hst K) : option num :=
  match r with
  | (Ok st, s) => match elitist st s with (Ok (Some r), _) => fit_of s r | _ => None end
  | _ => None
  end.
Definition falls {K L} (O : optimizer K) c (first later : list (env L * rng)) (i : ostate O) : bool :=
  match elite_fit (compose O c first (fresh_comp O i) (mkH [] [] a_tape)), elite_fit (compose O c (first ++ later) (fresh_comp O i) (mkH [] [] a_tape)) with
  | Some f1, Some f2 => nlt f2 f1
  | _, _ => false
  end.
Lemma elitist_pure {K} (O : optimizer K) (st : comp O) s r s' : elitist st s = (Ok (Some r), s') -> s' = s.
Proof.
  unfold elitist. destruct (cpop st) as [|x l]; [discriminate|]. intros H. apply bind_inv in H as (w & s1 & H1 & H).
  injection H as _ <-. apply fittest_eq in H1 as [-> _]. reflexivity.
Qed.
Lemma elite_fit_ok {K} {O : optimizer K} (r : res (comp O) * hst K) f : elite_fit r = Some f ->
  exists st s e, r = (Ok st, s) /\ elitist st s = (Ok (Some e), s) /\ has_fit s e f.
Proof.
  destruct r as [[st|x] s]; [|discriminate]. cbn [elite_fit]. destruct (elitist st s) as [[[e|]|x] s'] eqn:EE; try discriminate.
  intros H. exists st, s, e. split; auto. pose proof (elitist_pure _ _ _ _ _ EE). subst s'. split; auto. apply fit_of_has; auto.
Qed.
Lemma falls_ok {K L} (O : optimizer K) c (first later : list (env L * rng)) i : falls O c first later i = true -> worse_later O c first later i.
Proof.
  unfold falls. destruct (elite_fit (compose O c first _ _)) as [f1|] eqn:E1; [|discriminate].
  destruct (elite_fit (compose O c (first ++ later) _ _)) as [f2|] eqn:E2; [|discriminate]. intros H.
  apply elite_fit_ok in E1 as (st1 & s1 & r1 & A1 & B1 & C1). apply elite_fit_ok in E2 as (st2 & s2 & r2 & A2 & B2 & C2).
  exists a_tape, st1, s1, st2, s2, r1, r2, f1, f2. auto 8.
Qed.
(* log x is replaced by x - 1, which has the same sign *)
Definition bic_like : Q -> nat -> nat -> num := fun e k j => Fin (- (qofnat j * (e - 1) + qofnat k * (qofnat j - 1))).
Definition by_error : Q -> nat -> nat -> num := fun e _ _ => Fin (1 - e).
Definition with_target (y : Q) (E : env mean_learner) : env mean_learner := mkEnv (epool E) (eX E) [y] (emix E) (efit E).
Definition with_mix (mx : mixing) (E : env mean_learner) : env mean_learner := mkEnv (epool E) (eX E) (ey E) mx (efit E).
Definition by_count1 : Q -> nat -> nat -> num := fun _ k _ => Fin (qofnat (S k)).
Definition survives {K L} (O : optimizer K) (i : ostate O) (hist : list (env L * rng)) : bool :=
  ran (compose O (mkCcfg (RandomInit (1#2)) true true) hist (fresh_comp O i) (mkH [] [] a_tape)) (fun st _ => negb (Nat.eqb (length (cpop st)) 0)).
