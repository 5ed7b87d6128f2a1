(* Extinction of the ageing optimizer (C28), steps on an empty pool (C49). *)
From Coq Require Import Lia.
From Verif Require Import PyNum PyList PyMon PyRng PyStat L_Num L_List L_Rng M_Matching M_Rule L_RuleProps M_Mixing M_Solution S_Solution
  L_Heap L_HeapProps M_Composition L_Safe L_SafeFit M_GenomeOps S_GenomeOps L_GenomeOps L_GenomeProps M_GA L_GA L_GAProps M_Saga S_Saga M_Sas S_Sas L_Saga L_SagaProps L_Sas.

Definition raised {S A} (r : res A * S) (check : exn -> bool) : bool := match r with (Raise e, _) => check e | _ => false end.
Lemma raised_ok {S A} (r : res A * S) check : raised r check = true -> exists e s, r = (Raise e, s) /\ check e = true.
Proof. destruct r as [[a|e] s]; [discriminate|]. intros H. eauto. Qed.
Definition is_index (e : exn) : bool := match e with IndexError => true | _ => false end.
Definition is_value (e : exn) : bool := match e with ValueError => true | _ => false end.
Lemma is_index_eq e : is_index e = true -> e = IndexError. Proof. destruct e; try discriminate; reflexivity. Qed.
Lemma is_value_eq e : is_value e = true -> e = ValueError. Proof. destruct e; try discriminate; reflexivity. Qed.

Definition sas1 (iter init : nat) : sascfg := mkSas iter init Uniform (9#10) (1#1000).
Definition no_rules (f : Q -> nat -> nat -> num) : env mean_learner := mkEnv [] (eX ex_env) (ey ex_env) (emix ex_env) f.

(* an initial population of one *)
Lemma sas_lone_dies : exists (E : env mean_learner) (g : rng) st s,
  compose (sas (sas1 2 1)) (mkCcfg ZeroInit true false) [(E, g)] (fresh_comp (sas (sas1 2 1)) 1%nat) (mkH [] [] g) = (Ok st, s) /\ cpop st = [].
Proof.
  exists (count_env by_count), (scripted []).
  match goal with |- exists st s, ?r = _ /\ _ =>
    destruct (ran_ok r (fun st _ => match cpop st with [] => true | _ => false end)) as (st & s & H1 & H2) end; [vm_compute; reflexivity|].
  exists st, s. split; [exact H1|]. destruct (cpop st); [reflexivity|discriminate].
Qed.
Lemma sas_lone_raises : exists (E : env mean_learner) (g : rng) s,
  compose (sas (sas1 3 1)) (mkCcfg ZeroInit true true) [(E, g)] (fresh_comp (sas (sas1 3 1)) 1%nat) (mkH [] [] g) = (Raise IndexError, s).
Proof.
  exists (count_env by_count), (scripted []).
  match goal with |- exists s, ?r = _ => destruct (raised_ok r is_index) as (e & s & H1 & H2) end; [vm_compute; reflexivity|].
  apply is_index_eq in H2. subst e. exists s. exact H1.
Qed.
(* a step on the empty pool, then a normal one: the configured size does not help *)
Lemma sas_empty_step_raises : exists (E : env mean_learner) (g : rng) s,
  epool E <> [] /\
  compose (sas (sas1 16 4)) (mkCcfg ZeroInit true true) [(no_rules by_count, g); (E, g)] (fresh_comp (sas (sas1 16 4)) 4%nat) (mkH [] [] g) = (Raise IndexError, s).
Proof.
  exists (count_env by_count), (scripted []).
  match goal with |- exists s, _ /\ ?r = _ => destruct (raised_ok r is_index) as (e & s & H1 & H2) end; [vm_compute; reflexivity|].
  apply is_index_eq in H2. subst e. exists s. split; [discriminate|exact H1].
Qed.
(* ... while the same run without the first step ends normally *)
Lemma sas_without_empty_step : exists (E : env mean_learner) (g : rng) st s,
  epool E <> [] /\
  compose (sas (sas1 16 4)) (mkCcfg ZeroInit true true) [(E, g)] (fresh_comp (sas (sas1 16 4)) 4%nat) (mkH [] [] g) = (Ok st, s) /\ cpop st <> [].
Proof.
  exists (count_env by_count), (scripted []).
  match goal with |- exists st s, _ /\ ?r = _ /\ _ =>
    destruct (ran_ok r (fun st _ => match cpop st with [] => false | _ => true end)) as (st & s & H1 & H2) end; [vm_compute; reflexivity|].
  exists st, s. split; [discriminate|]. split; [exact H1|]. destruct (cpop st); discriminate.
Qed.

(* at capacity: five equally good members of age 1, four worse newborns *)
Definition elders (g : rng) : hst sas_sol :=
  let E := count_env by_count in
  run_ops (L := mean_learner) (
    [HNew [true; true; true]; HNew [true; true; true]; HNew [true; true; true]; HNew [true; true; true]; HNew [true; true; true];
     HNew [false; false; true]; HNew [false; false; true]; HNew [false; false; true]; HNew [false; false; true]] ++
    map (fun r => HFit r E) [0; 1; 2; 3; 4; 5; 6; 7; 8]%nat ++
    map (fun r => HSetExt (K := sas_sol) r 1%Z) [0; 1; 2; 3; 4]%nat) (mkH [] [] g).
Lemma elders_honest g : Forall (honest (count_env by_count) (elders g)) [0; 1; 2; 3; 4; 5; 6; 7; 8]%nat.
Proof.
  repeat constructor; (eexists _, _, (scripted []), _; split;
    [eexists; vm_compute; split; [reflexivity|split; reflexivity]|split; [reflexivity|vm_compute; reflexivity]]).
Qed.
Lemma ageing_kills_all : exists (E : env mean_learner) (s : hst sas_sol) pop s', built s /\ NoDup pop /\ Forall (honest E s) pop /\
  length pop = 9%nat /\ (exists a b, a <> b /\ In a pop /\ In b pop /\ newborn s a /\ newborn s b) /\
  (forall r, In r pop -> alive s r) /\ ageing 1 pop s = (Ok [], s').
Proof.
  exists (count_env by_count), (elders (scripted [])), [0; 1; 2; 3; 4; 5; 6; 7; 8]%nat. eexists.
  split; [eexists _, _, _; reflexivity|]. split; [repeat constructor; cbn; lia|]. split; [apply elders_honest|]. split; [reflexivity|].
  split.
  { exists 5%nat, 6%nat. split; [lia|]. split; [cbn; tauto|]. split; [cbn; tauto|]. split; eexists; split; vm_compute; reflexivity. }
  split.
  { intros r Hr. cbn in Hr.
    repeat (destruct Hr as [<-|Hr]; [eexists; split; [eexists; split; [vm_compute; reflexivity|vm_compute; reflexivity]|lia]|]). destruct Hr. }
  vm_compute. reflexivity.
Qed.

(* ----- steps on an empty pool, any optimizer ----- *)
Lemma bind_inv {S A B} (m : St S A) (k : A -> St S B) s b s2 : bind m k s = (Ok b, s2) -> exists a s1, m s = (Ok a, s1) /\ k a s1 = (Ok b, s2).
Proof. unfold bind. destruct (m s) as [[a|e] s1]; [|discriminate]. intros H. eauto. Qed.
Lemma empty_pool_one {K L} (O : optimizer K) c (E : env L) g (st st' : comp O) s s' :
  epool E = [] -> optimize O c E g st s = (Ok st', s') -> length (cpop st') = 1%nat /\ cint st' = cint st.
Proof.
  intros HP H. unfold optimize in H. apply bind_inv in H as (? & ? & _ & H). cbv beta zeta in H.
  apply bind_inv in H as (? & ? & _ & H). apply bind_inv in H as (? & ? & _ & H).
  rewrite HP in H. apply bind_inv in H as ([pop' i'] & s1 & H1 & H). apply bind_inv in H1 as (? & ? & _ & H1).
  apply bind_inv in H1 as (? & ? & _ & H1). injection H1 as <- <- _. apply bind_inv in H as (? & ? & _ & H). injection H as <- _. cbn. auto.
Qed.

(* saga2 with two elitists: the second generation is longer than the first *)
Definition cfg4 : s2cfg := mkS2 2 4 (1#2) SelRandom Uniform (1#1000) (1#10) (1#2) (9#10).
Lemma dot_short old : forall new, (length old < length new)%nat -> dot old new = Raise IndexError.
Proof.
  induction old as [|a old IH]; intros [|b new] H; cbn in *; try lia; auto. rewrite IH by lia. reflexivity.
Qed.
Lemma s2_longer {K L} t c (E : env L) z (s : hst K) pop' s1 fs st old : z_iter z <> 0%nat ->
  s2_breed c E (z_stats z) (z_rates z) (z_pop z) s = (Ok pop', s1) -> fitnesses pop' s1 = (Ok fs, s1) -> stats fs = Ok st ->
  fitnesses (z_pop z) s1 = (Ok old, s1) -> (length old < length fs)%nat -> s2_step t c E z s = (Raise IndexError, s1).
Proof.
  intros HZ H1 H2 H3 H4 HL. unfold s2_step. rewrite (bind_ok _ _ _ _ _ H1), (bind_ok _ _ _ _ _ H2).
  rewrite (bind_ok (lift (stats fs)) _ _ st s1) by (rewrite H3; reflexivity). destruct (Nat.eqb_spec (z_iter z) 0) as [|_]; [congruence|].
  destruct (diversity t (z_vmin z) (z_vmax z) st fs) as [d [vmin vmax]]. rewrite (bind_ok _ _ _ _ _ H4).
  apply bind_raise. unfold lift, similarity. rewrite dot_short by exact HL. reflexivity.
Qed.
Lemma empty_step4 (O : optimizer plain) i : osize O i = 4%nat ->
  optimize O (mkCcfg ZeroInit true true) (no_rules by_count) (scripted []) (fresh_comp O i) (mkH [] [] (scripted [])) =
  (Ok (mkComp [4]%nat [5]%nat i), snd (optimize O (mkCcfg ZeroInit true true) (no_rules by_count) (scripted []) (fresh_comp O i) (mkH [] [] (scripted [])))).
Proof.
  intros H. unfold optimize. cbn [cint fresh_comp]. rewrite H. reflexivity.
Qed.
Lemma optimize_raise {K L} (O : optimizer K) c (E : env L) g st s pop s2 s3 e s4 :
  init_population c (osize O (cint st)) (length (epool E)) (cpop st) (mkH (garr s) (sols s) g) = (Ok pop, s2) ->
  (if carchive c then miter (pad_zero (length (epool E))) (carch st) ;; fit_all E (carch st) ;; ret tt else ret tt) s2 = (Ok tt, s3) ->
  epool E <> [] -> orun O L E (cinit c) pop (cint st) s3 = (Raise e, s4) -> optimize O c E g st s = (Raise e, s4).
Proof.
  intros H1 H2 HP H3. unfold optimize. rewrite (bind_ok (set_rng g) _ s tt (mkH (garr s) (sols s) g) eq_refl). cbv zeta.
  rewrite (bind_ok _ _ _ _ _ H1). rewrite (bind_ok _ _ _ _ _ H2). destruct (epool E) as [|p ps] eqn:EP; [congruence|].
  apply bind_raise. exact H3.
Qed.
Lemma s2_run_raise {K L} t c (E : env L) ini pop r (s : hst K) s0 fs st pop1 s1 fs1 st1 pop2 s2 fs2 st2 :
  Nat.even (s2_size c) = true -> s2_iter c = 2%nat ->
  fit_all E pop s = (Ok pop, s0) -> fitnesses pop s0 = (Ok fs, s0) -> stats fs = Ok st ->
  s2_breed c E st r pop s0 = (Ok pop1, s1) -> fitnesses pop1 s1 = (Ok fs1, s1) -> stats fs1 = Ok st1 ->
  s2_breed c E st1 r pop1 s1 = (Ok pop2, s2) -> fitnesses pop2 s2 = (Ok fs2, s2) -> stats fs2 = Ok st2 ->
  fitnesses pop1 s2 = (Ok fs1, s2) -> (length fs1 < length fs2)%nat ->
  s2_run t c L E ini pop r s = (Raise IndexError, s2).
Proof.
  intros HE HI H1 H2 H3 H4 H5 H6 H7 H8 H9 H10 HL. unfold s2_run. rewrite HE, HI.
  rewrite (bind_ok _ _ _ tt s eq_refl), (bind_ok _ _ _ _ _ H1), (bind_ok _ _ _ _ _ H2). cbv zeta.
  rewrite (bind_ok (lift (stats fs)) _ _ st s0) by (rewrite H3; reflexivity). cbn [iterate].
  apply bind_raise. rewrite (bind_ok _ _ _ (mkS2s 1 pop1 st1 (nvar fs) (nvar fs) r) s1).
  - apply bind_raise. eapply s2_longer; cbn [z_iter z_stats z_rates z_pop]; try eassumption. lia.
  - unfold s2_step. cbn [z_stats z_rates z_pop z_iter z_vmin z_vmax]. rewrite (bind_ok _ _ _ _ _ H4), (bind_ok _ _ _ _ _ H5).
    rewrite (bind_ok (lift (stats fs1)) _ _ st1 s1) by (rewrite H6; reflexivity). reflexivity.
Qed.
Lemma saga2_empty_step t : exists (E : env mean_learner) (g : rng) s, epool E <> [] /\
  compose (saga2 t cfg4) (mkCcfg ZeroInit true true) [(no_rules by_count, scripted []); (E, g)] (fresh_comp (saga2 t cfg4) (s2_init cfg4))
    (mkH [] [] (scripted [])) = (Raise IndexError, s).
Proof.
  exists (count_env by_count), (scripted [0; 1; 0; 1; 95#100; 95#100; 99#100; 99#100; 99#100; 99#100; 99#100; 99#100]). eexists.
  split; [discriminate|]. cbn [compose].
  rewrite (bind_ok _ _ _ _ _ (empty_step4 (saga2 t cfg4) (s2_init cfg4) eq_refl)).
  apply bind_raise. eapply optimize_raise.
  - cbn [cint cpop saga2 osize]. vm_compute. reflexivity.
  - cbn [carch carchive]. vm_compute. reflexivity.
  - discriminate.
  - cbn [saga2 orun cinit cint]. eapply s2_run_raise; [reflexivity|reflexivity|vm_compute; reflexivity|vm_compute; reflexivity|vm_compute; reflexivity
      |vm_compute; reflexivity|vm_compute; reflexivity|vm_compute; reflexivity|vm_compute; reflexivity|vm_compute; reflexivity|vm_compute; reflexivity
      |vm_compute; reflexivity|cbn; lia].
Qed.

(* ----- the genetic algorithms recover: their generations have the configured size whatever the population was ----- *)
Lemma mmap_len {S A B} (f : A -> St S B) l : forall s l' s', mmap f l s = (Ok l', s') -> length l' = length l.
Proof.
  induction l as [|a l IH]; intros s l' s' H; cbn [mmap] in H; [injection H as <- _; reflexivity|].
  apply bind_inv in H as (b & s1 & _ & H). apply bind_inv in H as (bs & s2 & H1 & H). injection H as <- _. cbn. f_equal. eauto.
Qed.
Lemma times_len {K A} n (m : HSt K A) : forall s l s', times n m s = (Ok l, s') -> length l = n.
Proof.
  induction n as [|n IH]; intros s l s' H; cbn [times] in H; [injection H as <- _; reflexivity|].
  apply bind_inv in H as (x & s1 & _ & H). apply bind_inv in H as (xs & s2 & H1 & H). injection H as <- _. cbn. f_equal. eauto.
Qed.
Lemma pairs_len {A} (l : list A) : length (pairs l) = (length l / 2)%nat.
Proof.
  assert (H : forall n (l : list A), (length l <= n)%nat -> length (pairs l) = (length l / 2)%nat).
  { induction n as [|n IH]; intros [|a [|b l']] HL; cbn [pairs length] in *; try lia; try reflexivity.
    rewrite IH by lia. change (S (S (length l'))) with (2 + length l')%nat. replace (2 + length l')%nat with (1 * 2 + length l')%nat by lia. rewrite Nat.div_add_l by lia. reflexivity. }
  eauto.
Qed.
Lemma offspring_len {K} (cross : nat -> nat -> HSt K nat) parents s l s' : offspring cross parents s = (Ok l, s') -> length l = (2 * (length parents / 2))%nat.
Proof.
  unfold offspring. intros H. apply bind_inv in H as (cs & s1 & H1 & H). injection H as <- _. rewrite <- pairs_len.
  revert s cs s1 H1. induction (pairs parents) as [|p ps IH]; intros s cs s1 H1; cbn [mmap] in H1; [injection H1 as <- _; reflexivity|].
  apply bind_inv in H1 as (x & s2 & Hx & H1). apply bind_inv in H1 as (xs & s3 & H2 & H1). injection H1 as <- _.
  apply bind_inv in Hx as (c & s4 & _ & Hx). apply bind_inv in Hx as (d & s5 & _ & Hx). injection Hx as <- _. cbn. rewrite (IH _ _ _ H2). lia.
Qed.
Lemma fit_all_len {K L} (E : env L) rs (s : hst K) l s' : fit_all E rs s = (Ok l, s') -> length l = length rs.
Proof. apply mmap_len. Qed.
Lemma even_half n : Nat.even n = true -> (2 * (n / 2))%nat = n.
Proof. intros H. apply Nat.even_spec in H as [k ->]. rewrite (Nat.mul_comm 2 k), Nat.div_mul; lia. Qed.
Lemma odd_half n : Nat.odd n = true -> (2 * (n / 2) + 1)%nat = n.
Proof. intros H. apply Nat.odd_spec in H as [k ->]. rewrite (Nat.mul_comm 2 k), Nat.div_add_l by lia. change (1 / 2)%nat with 0%nat. lia. Qed.
Lemma iterate_last {K A} (f : A -> HSt K A) (Q : A -> Prop) : (forall x s y s', f x s = (Ok y, s') -> Q y) ->
  forall k x s y s', (0 < k)%nat -> iterate k f x s = (Ok y, s') -> Q y.
Proof.
  intros HF. induction k as [|k IH]; intros x s y s' Hk H; [lia|]. cbn [iterate] in H. apply bind_inv in H as (x' & s1 & H1 & H).
  destruct k as [|k]; [cbn [iterate] in H; injection H as <- _; eauto|]. eapply IH; [lia|exact H].
Qed.
Lemma select_len {K} k pop n (s : hst K) r s' : select k pop n s = (Ok r, s') -> length r = n.
Proof.
  assert (HC : forall (s : hst K) r s', rnd (choices pop n) s = (Ok r, s') -> length r = n).
  { intros t r' t' H. rewrite rnd_eq in H. destruct (choices pop n (hrng t)) as [[x|e] g] eqn:HC; [|discriminate]. injection H as <- _.
    apply choices_ok in HC. apply HC. }
  assert (HP : forall w (s : hst K) r s', rnd (choices_p pop n w) s = (Ok r, s') -> length r = n).
  { intros w t r' t' H. rewrite rnd_eq in H. destruct (choices_p pop n w (hrng t)) as [[x|e] g] eqn:HW; [|discriminate]. injection H as <- _.
    apply choices_p_ok in HW. apply HW. }
  destruct k as [| | |k]; cbn [select]; intros H.
  - eauto.
  - apply bind_inv in H as (fs & s1 & _ & H). destruct (roulette_weights fs) as [w|]; [|eauto]. unfold choices_num in H.
    destruct (finites w) as [qs|]; [eauto|discriminate].
  - apply bind_inv in H as (fs & s1 & _ & H). eauto.
  - apply mmap_len in H. rewrite seq_length in H. exact H.
Qed.
Lemma ga_step_size {K L} c (E : env L) pop (s : hst K) pop' s' : ga_step c E pop s = (Ok pop', s') -> (g_size c <= length pop')%nat.
Proof.
  intros H. unfold ga_step in H. apply bind_inv in H as (ranked & s1 & _ & H). cbv zeta in H. apply bind_inv in H as (parents & s2 & HP & H).
  apply bind_inv in H as (cs & s3 & HO & H). apply bind_inv in H as (cs' & s4 & HC & H). apply bind_inv in H as (ms & s5 & HM & H).
  apply fit_all_len in H. rewrite app_length in H. apply mmap_len in HM. apply offspring_len in HO. apply select_len in HP. rewrite HP in HO.
  destruct (Nat.odd (g_size c)) eqn:OD.
  - apply bind_inv in HC as (x & s6 & _ & HC). injection HC as <- _. rewrite app_length in HM. cbn in HM. apply odd_half in OD. lia.
  - injection HC as <- _. rewrite <- Nat.negb_even in OD. apply Bool.negb_false_iff in OD. apply even_half in OD. lia.
Qed.

Lemma saga_generation_size {K L} (E : env L) size ratio sel cross mutate pop (s : hst K) pop' s' : Nat.even size = true ->
  saga_generation E size ratio sel cross mutate pop s = (Ok pop', s') -> (size <= length pop')%nat.
Proof.
  intros EV H. unfold saga_generation in H. apply bind_inv in H as (ranked & s1 & _ & H). cbv zeta in H. apply bind_inv in H as (parents & s2 & HP & H).
  apply bind_inv in H as (cs & s3 & HO & H). apply bind_inv in H as (ms & s5 & HM & H).
  apply fit_all_len in H. rewrite app_length in H. apply mmap_len in HM. apply offspring_len in HO. apply select_len in HP. rewrite HP in HO.
  apply even_half in EV. lia.
Qed.
Lemma optimize_orun {K L} (O : optimizer K) c (E : env L) g (st st' : comp O) s s' : epool E <> [] -> optimize O c E g st s = (Ok st', s') ->
  exists pop s1 s2, orun O L E (cinit c) pop (cint st) s1 = (Ok (cpop st', cint st'), s2).
Proof.
  intros HP H. unfold optimize in H. apply bind_inv in H as (? & ? & _ & H). cbv beta zeta in H.
  apply bind_inv in H as (pop & ? & _ & H). apply bind_inv in H as (? & s1 & _ & H).
  destruct (epool E) as [|p ps] eqn:EP; [congruence|]. apply bind_inv in H as ([pop' i'] & s2 & H1 & H).
  apply bind_inv in H as (? & ? & _ & H). injection H as <- _. cbn [cpop cint]. exists pop, s1, s2. exact H1.
Qed.
Lemma ga_recovers {L} c cc (E : env L) g (st st' : comp (ga c)) s s' : epool E <> [] -> (0 < g_iter c)%nat ->
  optimize (ga c) cc E g st s = (Ok st', s') -> (g_size c <= length (cpop st'))%nat.
Proof.
  intros HP HI H. apply optimize_orun in H as (pop & s1 & s2 & H); auto. cbn [orun ga] in H. unfold ga_run in H.
  apply bind_inv in H as (p0 & s3 & _ & H). apply bind_inv in H as (p1 & s4 & H1 & H). injection H as H _ _. rewrite <- H.
  eapply (iterate_last (ga_step c E) (fun p => (g_size c <= length p)%nat)); [|exact HI|exact H1]. intros; eapply ga_step_size; eauto.
Qed.
Lemma saga1_recovers {L} c cc (E : env L) g (st st' : comp (saga1 c)) s s' : epool E <> [] -> (0 < s1_iter c)%nat ->
  optimize (saga1 c) cc E g st s = (Ok st', s') -> (s1_size c <= length (cpop st'))%nat.
Proof.
  intros HP HI H. apply optimize_orun in H as (pop & s1 & s2 & H); auto. cbn [orun saga1] in H. unfold s1_run in H.
  apply bind_inv in H as (u & s3 & H0 & H). apply bind_inv in H as (p0 & s4 & _ & H).
  assert (EV : Nat.even (s1_size c) = true) by (destruct (Nat.even (s1_size c)); [reflexivity|discriminate H0]).
  enough (s1_size c <= length (fst (cpop st', cint st')))%nat by exact H1.
  eapply (iterate_last (s1_step c E) (fun p => (s1_size c <= length (fst p))%nat)); [|exact HI|exact H].
  intros [p r] t y t' HS. unfold s1_step in HS. apply bind_inv in HS as (fs & t1 & _ & HS). apply bind_inv in HS as (r' & t2 & _ & HS).
  apply bind_inv in HS as (p' & t3 & HG & HS). injection HS as <- _. cbn [fst]. eapply saga_generation_size; eauto.
Qed.
Lemma saga3_recovers {L} c cc (E : env L) g (st st' : comp (saga3 c)) s s' : epool E <> [] -> (0 < s3_iter c)%nat ->
  optimize (saga3 c) cc E g st s = (Ok st', s') -> (s3_size c <= length (cpop st'))%nat.
Proof.
  intros HP HI H. apply optimize_orun in H as (pop & s1 & s2 & H); auto. cbn [orun saga3] in H. unfold s3_run in H.
  apply bind_inv in H as (u & s3 & H0 & H). apply bind_inv in H as (p0 & s4 & _ & H). apply bind_inv in H as (p1 & s5 & H1 & H). injection H as H _ _.
  assert (EV : Nat.even (s3_size c) = true) by (destruct (Nat.even (s3_size c)); [reflexivity|discriminate H0]). rewrite <- H.
  eapply (iterate_last _ (fun p => (s3_size c <= length p)%nat)); [|exact HI|exact H1].
  intros p t y t' HS. eapply saga_generation_size; eauto.
Qed.
Lemma rs_recovers {L} ni size cc (E : env L) g (st st' : comp (rs ni size)) s s' : epool E <> [] ->
  optimize (rs ni size) cc E g st s = (Ok st', s') -> length (cpop st') = size.
Proof.
  intros HP H. apply optimize_orun in H as (pop & s1 & s2 & H); auto. cbn [orun rs] in H. unfold rs_run in H.
  apply bind_inv in H as (u & s3 & _ & H). apply bind_inv in H as (p1 & s5 & H1 & H). injection H as H _ _. rewrite <- H.
  eapply times_len; eauto.
Qed.
