(* Wolves and swarms that always return. *)
From Coq Require Import Lia Permutation.
From Verif Require Import PyNum PyList PyMon PyRng PyStat L_Num L_List L_Rng M_Matching M_Rule M_Mixing L_Mixing M_Solution S_Solution
  L_Heap L_HeapProps M_Composition L_Safe L_SafeFit L_Composition M_GenomeOps S_GenomeOps L_GenomeOps L_Held M_Aco M_Abc M_Swarm L_Swarm S_Live L_LiveComp.

(* ----- the fitness of an object is never lost ----- *)
Definition known {K} (s : hst K) (r : nat) : Prop := exists o a, nth_error (sols s) r = Some o /\ satt o = Some a.
Definition keeps {K T} (m : HSt K T) : Prop := forall s r, known s r -> known (snd (m s)) r.
Section Keeps.
Context {K : skind} {L : learner}.
Implicit Types s : hst K.
Lemma keeps_bind {T U} (m : HSt K T) (k : T -> HSt K U) : keeps m -> (forall a, keeps (k a)) -> keeps (bind m k).
Proof. intros H1 H2 s r H. unfold bind. specialize (H1 s r H). destruct (m s) as [[a|e] s1]; cbn in *; [apply H2; auto|auto]. Qed.
Lemma keeps_ret {T} (a : T) : keeps (K := K) (ret a). Proof. intros s r H; exact H. Qed.
Lemma keeps_lift {T} (a : res T) : keeps (K := K) (lift a). Proof. intros s r H; destruct a; exact H. Qed.
Lemma keeps_raise {T} e : keeps (K := K) (T := T) (raise e). Proof. intros s r H; exact H. Qed.
Lemma keeps_rnd1 {T} (f : rng -> T * rng) : keeps (K := K) (rnd1 f). Proof. intros s r H. rewrite rnd1_eq. exact H. Qed.
Lemma keeps_rnd {T} (f : rng -> res T * rng) : keeps (K := K) (rnd f). Proof. intros s r H. rewrite rnd_eq. exact H. Qed.
Lemma keeps_mmap {T U} (f : T -> HSt K U) l : (forall x, keeps (f x)) -> keeps (mmap f l).
Proof. intros H. induction l as [|x l IH]; cbn [mmap]; [apply keeps_ret|]. apply keeps_bind; auto. intros y. apply keeps_bind; auto. intros ys. apply keeps_ret. Qed.
Lemma keeps_get_sol r : keeps (K := K) (get_sol r).
Proof. intros s x H. unfold get_sol, bind, get, lift. cbn. destruct (nth_error (sols s) r); exact H. Qed.
Lemma keeps_genome r : keeps (K := K) (genome r).
Proof. apply keeps_bind; [apply keeps_get_sol|]. intros o s x H. unfold get_arr, bind, get, lift. cbn. destruct (nth_error (garr s) (gref o)); exact H. Qed.
Lemma keeps_fitness r : keeps (K := K) (fitness r).
Proof.
  apply keeps_bind; [|intros a; apply keeps_ret]. apply keeps_bind; [apply keeps_get_sol|]. intros o. apply keeps_lift.
Qed.
Lemma keeps_set_genome r bits : keeps (K := K) (set_genome r bits).
Proof.
  intros s x H. unfold set_genome, bind. unfold get_sol at 1, bind, get, lift. cbn. destruct (nth_error (sols s) r) as [o|] eqn:Eo; cbn; [|exact H].
  destruct H as (o' & a & H1 & H2). destruct (Nat.eq_dec x r) as [->|Hn].
  - rewrite Eo in H1. injection H1 as ->. eexists _, a. split; [cbn; apply update_nth_same; apply nth_error_Some; rewrite Eo; discriminate|exact H2].
  - exists o', a. split; [|exact H2]. cbn. rewrite update_nth_other; auto.
Qed.
Lemma keeps_alloc_arr bits : keeps (K := K) (alloc_arr bits). Proof. intros s x H. exact H. Qed.
Lemma keeps_alloc_sol o : keeps (K := K) (alloc_sol o).
Proof. intros s x (o' & a & H1 & H2). exists o', a. split; [|exact H2]. cbn. rewrite nth_error_app1; [exact H1|]. apply nth_error_Some. rewrite H1. discriminate. Qed.
Lemma keeps_put_sol r o a : satt o = Some a -> keeps (K := K) (put_sol r o).
Proof.
  intros Ho s x (o' & b & H1 & H2). destruct (Nat.eq_dec x r) as [->|Hn].
  - exists o, a. split; [|exact Ho]. cbn. apply update_nth_same. apply nth_error_Some. rewrite H1. discriminate.
  - exists o', b. split; [|exact H2]. cbn. rewrite update_nth_other; auto.
Qed.
Lemma keeps_clone r : keeps (K := K) (clone r).
Proof.
  unfold clone. apply keeps_bind; [apply keeps_genome|]. intros bits. apply keeps_bind; [apply keeps_alloc_arr|]. intros a.
  apply keeps_bind; [apply keeps_bind; [apply keeps_get_sol|]; intros o; apply keeps_lift|]. intros at_.
  apply keeps_bind; [apply keeps_bind; [apply keeps_get_sol|]; intros o; apply keeps_ret|]. intros x. apply keeps_alloc_sol.
Qed.
Lemma keeps_fit (E : env L) r : keeps (K := K) (fit E r).
Proof.
  unfold fit. apply keeps_bind; [apply keeps_genome|]. intros bits. apply keeps_bind; [apply keeps_rnd|]. intros a.
  apply keeps_bind; [apply keeps_get_sol|]. intros o. apply keeps_bind; [eapply keeps_put_sol; reflexivity|]. intros u. apply keeps_ret.
Qed.
Lemma keeps_fit_all (E : env L) rs : keeps (K := K) (fit_all E rs).
Proof. apply keeps_mmap. intros r. apply keeps_fit. Qed.
End Keeps.
Section Swarm.
Context {L : learner}.
Variable E : env L.
Variable A : nat -> Prop.
Implicit Types s : hst plain.
Hypothesis HM : measurable E.
Let n := length (epool E).
Local Notation safe := (safe E A).
Local Notation good := (good E A).
Local Notation inv := (inv A).
Local Notation held := (held E A).
Local Notation lives := (lives E A).
Local Notation grow := (grow E A).
Lemma lives_keeps {T} h (m : HSt plain T) (Q : T -> hst plain -> Prop) s : lives h m Q s -> keeps m -> lives h m (fun a s' => Q a s' /\ forall r, known s r -> known s' r) s.
Proof.
  intros [H1 H2] HK. split; [|exact H2]. unfold L_Safe.safe in *. specialize (HK s). destruct (m s) as [[a|e] s']; auto. destruct H1 as [G HQ]. split; auto.
Qed.
Lemma honest_known s r : honest E s r -> known s r.
Proof. intros (b & a & g & g' & (o & H1 & _ & H2) & _). exists o, a. auto. Qed.
Lemma known_view s r : held s r -> known s r -> exists b a x, vw s r = Some (b, Some a, x) /\ length b = n.
Proof.
  intros HH (o & a & H1 & H2). apply held_vw in HH as (b & a' & x & HV & HL). exists b, a, x. split; [|exact HL].
  pose proof (vw_inv _ _ _ _ _ HV) as (o' & G1 & _ & G2 & _). rewrite H1 in G1. injection G1 as <-. rewrite HV, <- G2, H2. reflexivity.
Qed.

(* ----- wolves ----- *)
Lemma rnd1_returns {T} (f : rng -> T * rng) s : returns (rnd1 f) s. Proof. eexists _, _. apply rnd1_eq. Qed.
Lemma lives_rnd1 {T} h (f : rng -> T * rng) Q s : safe h (rnd1 f) Q s -> lives h (rnd1 f) Q s. Proof. intros H. split; [exact H|apply rnd1_returns]. Qed.
Lemma binarize_returns M xs s : returns (sigmoid_binarize M xs) s.
Proof. unfold returns, sigmoid_binarize. erewrite bind_ok by apply rnd1_eq. eexists _, _. reflexivity. Qed.
Lemma binary_X_returns M a l w s : returns (binary_X M a l w) s.
Proof.
  unfold returns, binary_X. cbv zeta. erewrite bind_ok by apply rnd1_eq. erewrite bind_ok by apply rnd1_eq.
  match goal with |- context[sigmoid_binarize M ?xs] => destruct (binarize_returns M xs) with (s := with_r (with_r s (snd (randoms (length l) (hrng s)))) (snd (randoms (length l) (hrng (with_r s (snd (randoms (length l) (hrng s)))))))) as (b & s' & Hb) end.
  rewrite (bind_ok _ _ _ _ _ Hb). erewrite bind_ok by apply rnd1_eq. eexists _, _. reflexivity.
Qed.
Lemma wolf_X_returns a l w s : returns (wolf_X a l w) s.
Proof. unfold returns, wolf_X. cbv zeta. do 2 erewrite bind_ok by apply rnd1_eq. eexists _, _. reflexivity. Qed.
Lemma genomes_lives h rs s : inv s -> Forall (good s) rs -> lives h (mmap genome rs) (fun ls s' => s' = s /\ Forall (fun l => length l = n) ls /\ length ls = length rs) s.
Proof.
  intros I. induction 1 as [|r rs HG HGs IH]; cbn [mmap]; [apply lives_ret; auto|].
  eapply lives_bind with (Q := fun b s' => s' = s /\ length b = n).
  { split; [eapply safe_post; [apply safe_genome; auto|]; intros b s' _ (H1 & H2 & _); auto|]. destruct HG as (_ & b & a & x & HV & _). eexists _, _. apply (genome_eq _ _ _ _ _ HV). }
  intros b s' _ (-> & Hb). eapply lives_bind; [apply IH|]. intros bs s' _ (-> & H1 & H2). apply lives_ret; auto. split; auto. split; [constructor; auto|cbn; auto].
Qed.
Lemma lives_wolf_move h M p a leaders r s : inv s -> good s r -> Forall (good s) leaders -> leaders <> [] -> (p = WCrossover -> (length leaders <= 32)%nat) ->
  lives h (wolf_move M p a leaders r) (fun c s' => good s' c) s.
Proof.
  intros I HG HLd HN H32. split; [eapply safe_post; [apply safe_wolf_move; auto|]; intros c s' _ H; apply H|].
  enough (H : lives h (wolf_move M p a leaders r) (fun _ _ => True) s) by apply H. unfold wolf_move.
  eapply lives_bind with (Q := fun b s' => s' = s /\ length b = n).
  { split; [eapply safe_post; [apply safe_genome; auto|]; intros b s' _ (H1 & H2 & _); auto|]. destruct HG as (_ & b & x & y & HV & _). eexists _, _. apply (genome_eq _ _ _ _ _ HV). }
  intros w s' _ (-> & Hw). eapply lives_bind; [apply genomes_lives; auto|]. intros ls s' _ (-> & Hls & HL). cbv beta. rewrite Forall_forall in Hls.
  assert (HN0 : (length leaders <> 0)%nat) by (destruct leaders; [congruence|cbn; lia]).
  eapply lives_bind with (Q := fun b _ => length b = n).
  { destruct p.
    - unfold wolf_crossover. eapply lives_bind.
      { apply (lives_mmap E A h (fun l => binary_X M a l w) (fun l x (_ : hst plain) => length x = n)); auto. intros l s1 Hl G1. split; [apply safe_binary_X; auto; inv_of G1|apply binary_X_returns]. }
      intros xs s1 G1 HF. cbv beta in *. assert (HLx : length xs = length leaders) by (rewrite <- HL; symmetry; clear - HF; induction HF; cbn; auto).
      destruct (Nat.eqb_spec (length xs) 0) as [E0|_]; [lia|]. destruct (Nat.ltb_spec 32 (length xs)) as [E0|_]; [specialize (H32 eq_refl); lia|]. cbn [orb].
      eapply lives_bind; [apply lives_rnd1, safe_draws; inv_of G1|]. intros qs s2 G2 Hq. cbv beta in *. apply lives_ret; [inv_of G2|]. rewrite mapi_length. lia.
    - unfold wolf_sigmoid. eapply lives_bind.
      { apply (lives_mmap E A h (fun l => wolf_X a l w) (fun l x (_ : hst plain) => length x = n)); auto. intros l s1 Hl G1. split; [apply safe_wolf_X; auto; inv_of G1|apply wolf_X_returns]. }
      intros xs s1 G1 HF. cbv beta in *. assert (HLx : length xs = length leaders) by (rewrite <- HL; symmetry; clear - HF; induction HF; cbn; auto).
      destruct (Nat.eqb_spec (length xs) 0) as [E0|_]; [lia|].
      split; [eapply safe_post; [apply safe_sigmoid_binarize; inv_of G1|]; intros b s2 _ Hb; rewrite Hb, map_length, seq_length; exact Hw|apply binarize_returns]. }
  intros bits s1 G1 Hb. cbv beta in *. pose proof (grow_good _ _ _ _ _ _ G1 HG) as HG1.
  split; [eapply safe_post; [apply safe_clone_with; [inv_of G1|exact HG1|exact Hb]|auto]|]. destruct HG1 as (_ & b & x & y & HV & _).
  eexists _, _. apply (clone_with_eq _ _ _ _ _ _ HV).
Qed.
Lemma lives_wolf_step M c pop a s : (0 < w_leaders c)%nat -> (w_pos c = WCrossover -> (w_leaders c <= 32)%nat) -> inv s -> Forall (good s) pop -> Forall (honest E s) pop -> pop <> [] ->
  lives true (wolf_step M c E (pop, a)) (fun z s' => Forall (good s') (fst z) /\ Forall (honest E s') (fst z) /\ fst z <> []) s.
Proof.
  intros H1 H2 I HG HH HN. split.
  { eapply safe_post; [apply safe_wolf_step; auto|]. intros z s' _ (Ha & Hb & Hc & _). split; auto. split; auto. intros E0. rewrite E0 in Hc. destruct pop; [congruence|discriminate]. }
  enough (H : lives true (wolf_step M c E (pop, a)) (fun _ _ => True) s) by apply H. cbn [wolf_step].
  eapply lives_bind; [apply lives_ranked; auto|]. intros ranked s' _ (-> & HP). cbv beta.
  assert (HR : Forall (good s) (firstn (w_leaders c) ranked)).
  { apply Forall_forall. intros r Hr. apply In_firstn in Hr. rewrite Forall_forall in HG. apply HG. eapply Permutation_in; eauto. }
  assert (HNR : firstn (w_leaders c) ranked <> []).
  { destruct ranked as [|r0 rk]; [apply Permutation_nil in HP; congruence|]. destruct (w_leaders c); [lia|discriminate]. }
  eapply lives_bind.
  { apply (lives_mmap E A true (wolf_move M (w_pos c) a (firstn (w_leaders c) ranked)) (fun _ r s' => good s' r)); auto.
    - intros x r s1 s2 G H. eapply grow_good; eauto.
    - intros r s1 Hr G1. rewrite Forall_forall in HG. apply lives_wolf_move; [inv_of G1|eapply grow_good; eauto|eapply grow_goods; eauto|exact HNR|].
      intros Hp. rewrite firstn_length. specialize (H2 Hp). lia. }
  intros new s1 G1 HF. cbv beta in *.
  assert (HN1 : Forall (good s1) new) by (clear - HF; induction HF; constructor; auto).
  eapply lives_bind; [apply lives_fit_all; [exact HM|inv_of G1|exact HN1]|]. intros pop' s2 G2 _. apply lives_ret; [inv_of G2|exact Logic.I].
Qed.
Lemma lives_wolf_run M c ini pop s : (0 < w_iter c)%nat -> (0 < w_leaders c)%nat -> (w_pos c = WCrossover -> (w_leaders c <= 32)%nat) -> inv s -> Forall (good s) pop -> pop <> [] ->
  lives true (wolf_run M c L E ini pop tt) (fun r s' => fst r <> []) s.
Proof.
  intros H0 H1 H2 I HG HN. unfold wolf_run. eapply lives_bind; [apply lives_fit_all; auto|]. intros pop0 s0 G0 (-> & Ha & Hb). cbv beta.
  destruct (Nat.eqb_spec (w_iter c) 0) as [E0|_]; [lia|]. eapply lives_bind.
  - apply (lives_iterate E A true (wolf_step M c E) (fun z s' => Forall (good s') (fst z) /\ Forall (honest E s') (fst z) /\ fst z <> [])); [inv_of G0|cbn; auto|].
    intros [q a] s1 I1 (Hp1 & Hp2 & Hp3). apply lives_wolf_step; auto.
  - intros z s1 G1 (_ & _ & H). apply lives_ret; [inv_of G1|]. exact H.
Qed.

(* ----- particles ----- *)
Definition seen s (p : particle) : Prop := known s (p_sol p) /\ known s (p_best p).
Lemma returns_rnd1 {T U} (f : rng -> T * rng) (k : T -> HSt plain U) s : (forall a g, returns (k a) (with_r s g)) -> returns (bind (rnd1 f) k) s.
Proof. intros H. destruct (H (fst (f (hrng s))) (snd (f (hrng s)))) as (u & s' & Hu). exists u, s'. rewrite (bind_ok _ _ _ _ _ (rnd1_eq _ s)). exact Hu. Qed.
Lemma returns_bind {T U} (m : HSt plain T) (k : T -> HSt plain U) s : returns m s -> (forall a s', m s = (Ok a, s') -> returns (k a) s') -> returns (bind m k) s.
Proof. intros (a & s1 & H1) H. destruct (H a s1 H1) as (u & s' & Hu). exists u, s'. rewrite (bind_ok _ _ _ _ _ H1). exact Hu. Qed.
Lemma init_particle_returns m r s : inv s -> good s r -> known s r -> returns (init_particle m r) s.
Proof.
  intros I HG HK. destruct (known_view s r (or_introl HG) HK) as (b & a & x & HV & HL). unfold returns, init_particle.
  rewrite (bind_ok _ _ _ _ _ (genome_eq _ _ _ _ _ HV)).
  assert (HC : forall g pos bp vel, returns (let* best := clone r in ret (mkPart r best pos bp vel)) (with_r s g)).
  { intros g pos bp vel. unfold returns. rewrite (bind_ok _ _ _ _ _ (clone_eq (with_r s g) r b a x (proj1 I) HV)). eexists _, _. reflexivity. }
  destruct m as [q c vmax| |pl na].
  - apply returns_rnd1. intros us g. apply returns_rnd1. intros qs g'. apply HC.
  - apply returns_rnd1. intros us g. apply HC.
  - specialize (HC (hrng s) [] [] []). destruct s; exact HC.
Qed.
Lemma best_by_returns key ps s : ps <> [] -> Forall (fun p => held s (key p) /\ known s (key p)) ps -> returns (best_by key ps) s.
Proof.
  intros HN HF. unfold best_by.
  assert (HK : exists ks, mmap (fun p => let* f := fitness (key p) in ret (f, p)) ps s = (Ok ks, s) /\ length ks = length ps).
  { clear HN. induction HF as [|p ps [Hp1 Hp2] _ (ks & IH & IL)]; [exists []; auto|]. destruct (known_view s _ Hp1 Hp2) as (b & a & x & HV & _). cbn [mmap].
    pose proof (fitness_eq _ _ _ _ _ HV) as HFt. cbn in HFt.
    assert (H1 : (let* f := fitness (key p) in ret (f, p)) s = (Ok (sfitness a, p), s)) by (rewrite (bind_ok _ _ _ _ _ HFt); reflexivity).
    exists ((sfitness a, p) :: ks). rewrite (bind_ok _ _ _ _ _ H1), (bind_ok _ _ _ _ _ IH). split; [reflexivity|cbn; auto]. }
  destruct HK as (ks & HK & HL). unfold returns. rewrite (bind_ok _ _ _ _ _ HK).
  destruct (pymax_some (fun a b => nlt (fst a) (fst b)) ks) as (k & Ek); [intros ->; destruct ps; [congruence|discriminate]|]. rewrite Ek. eexists _, _. reflexivity.
Qed.
Lemma first_returns ps s : ps <> [] -> returns (first_particle ps) s.
Proof. intros H. destruct ps as [|p ps]; [congruence|]. eexists _, _. reflexivity. Qed.
Lemma set_genome_returns r bits s : good s r -> returns (set_genome r bits) s.
Proof. intros (_ & b & a & x & HV & _). eexists _, _. apply (set_genome_eq _ _ _ _ _ _ HV). Qed.
Lemma write_back_returns M xs (p : particle) (q : particle) s : good s (p_sol p) ->
  returns (let* bits := sigmoid_binarize M xs in set_genome (p_sol p) bits ;; ret q) s.
Proof.
  intros (HN & b & a & x & HV & HL). apply returns_bind; [apply binarize_returns|]. intros bits s' H. unfold sigmoid_binarize in H. rewrite (bind_ok _ _ _ _ _ (rnd1_eq _ s)) in H.
  injection H as _ E1. assert (HV' : vw s' (p_sol p) = Some (b, a, x)) by (rewrite <- E1; exact HV).
  eexists _, _. rewrite (bind_ok _ _ _ _ _ (set_genome_eq _ _ _ _ _ bits HV')). reflexivity.
Qed.
Lemma classic_move_returns M b c vmax a g k p s : good s (p_sol p) -> returns (classic_move M b c vmax a g k p) s.
Proof.
  intros HG. unfold classic_move. apply returns_rnd1. intros u1 g1. apply returns_rnd1. intros u2 g2. cbv zeta. apply write_back_returns. exact HG.
Qed.
Lemma quantum_move_returns M a g mean k p s : good s (p_sol p) -> returns (quantum_move M a g mean k p) s.
Proof.
  intros HG. unfold quantum_move. apply returns_rnd1. intros u1 g1. apply returns_rnd1. intros u2 g2. apply returns_bind; [eexists _, _; rewrite rnd_eq; reflexivity|].
  intros sign s' H. rewrite rnd_eq in H. injection H as _ <-. cbv zeta. apply write_back_returns. exact HG.
Qed.
Lemma lives_move M m a ps s : smooth m -> ps <> [] -> inv s -> Forall (placed E A m s) ps -> Forall (seen s) ps ->
  lives false (move M m a ps) (fun ps' s' => Forall2 (moved E A m s') ps ps' /\ forall r, known s r -> known s' r) s.
Proof.
  intros Hm HN I HP HS. apply lives_keeps.
  - split; [apply safe_move; auto|].
    assert (HB : returns (best_by p_sol ps) s).
    { apply best_by_returns; [exact HN|]. apply Forall_forall. intros p Hp. rewrite Forall_forall in HP, HS. split; [left; apply (HP p Hp)|apply (HS p Hp)]. }
    pose proof HP as HP0. rewrite Forall_forall in HP0.
    destruct m as [b c vmax| |pl na]; [| |destruct Hm]; cbn [move].
    + apply returns_bind; [exact HB|]. intros g s' Eg. pose proof (safe_best_by E A false p_sol ps s I (placed_sols _ _ _ _ _ HP)) as HB2. unfold L_Safe.safe in HB2. rewrite Eg in HB2. destruct HB2 as (_ & -> & Hg). clear HB Eg.
      apply returns_bind; [apply first_returns; exact HN|]. intros p0 s' Ep. pose proof (safe_first E A false ps s I) as HB2. unfold L_Safe.safe in HB2. rewrite Ep in HB2. destruct HB2 as (_ & -> & Hp0). clear Ep.
      enough (H : lives false (mmap (classic_move M b c vmax a (p_pos g) (length (p_pos p0))) ps) (fun ys s' => Forall2 (fun p p' => moved E A (MSigmoid b c vmax) s' p p') ps ys) s) by apply H.
      apply (lives_mmap E A false _ (fun p p' s' => moved E A (MSigmoid b c vmax) s' p p')); auto.
      * intros. eapply grow_moved; eauto.
      * intros p s1 Hp G1. split; [apply safe_classic_move; [inv_of G1|eapply grow_placed; eauto| |]; [apply (HP0 p0 Hp0)|apply (HP0 g Hg)]|].
        apply classic_move_returns. eapply grow_good; [exact G1|apply (HP0 p Hp)].
    + apply returns_bind; [exact HB|]. intros g s' Eg. pose proof (safe_best_by E A false p_sol ps s I (placed_sols _ _ _ _ _ HP)) as HB2. unfold L_Safe.safe in HB2. rewrite Eg in HB2. destruct HB2 as (_ & -> & Hg). clear HB Eg.
      apply returns_bind; [apply first_returns; exact HN|]. intros p0 s' Ep. pose proof (safe_first E A false ps s I) as HB2. unfold L_Safe.safe in HB2. rewrite Ep in HB2. destruct HB2 as (_ & -> & Hp0). clear Ep.
      cbv zeta. assert (Hn : length (p_pos p0) = n) by apply (HP0 p0 Hp0).
      match goal with |- returns (mmap ?f ps) s => enough (H : lives false (mmap f ps) (fun ys s' => Forall2 (fun p p' => moved E A MSigmoidQuantum s' p p') ps ys) s) by apply H end.
      apply (lives_mmap E A false _ (fun p p' s' => moved E A MSigmoidQuantum s' p p')); auto.
      * intros. eapply grow_moved; eauto.
      * intros p s1 Hp G1. split; [apply safe_quantum_move; [inv_of G1|eapply grow_placed; eauto|auto|apply (HP0 g Hg)|]|].
        -- unfold column_means. rewrite map_length, seq_length. auto.
        -- apply quantum_move_returns. eapply grow_good; [exact G1|apply (HP0 p Hp)].
  - assert (HB : keeps (best_by p_sol ps)).
    { apply keeps_bind; [apply keeps_mmap; intros p; apply keeps_bind; [apply keeps_fitness|intros f; apply keeps_ret]|]. intros ks. apply keeps_bind; [apply keeps_lift|intros k; apply keeps_ret]. }
    assert (HSB : forall xs r q, keeps (let* bits := sigmoid_binarize M xs in set_genome r bits ;; ret (q : particle))).
    { intros xs r q. apply keeps_bind; [apply keeps_bind; [apply keeps_rnd1|intros us; apply keeps_ret]|]. intros bits. apply keeps_bind; [apply keeps_set_genome|intros u; apply keeps_ret]. }
    destruct m as [b c vmax| |pl na]; [| |destruct Hm]; cbn [move]; (apply keeps_bind; [exact HB|]; intros g; apply keeps_bind; [apply keeps_lift|]; intros p0; cbv zeta; apply keeps_mmap; intros p).
    + unfold classic_move. apply keeps_bind; [apply keeps_rnd1|]. intros u1. apply keeps_bind; [apply keeps_rnd1|]. intros u2. cbv zeta. apply HSB.
    + unfold quantum_move. apply keeps_bind; [apply keeps_rnd1|]. intros u1. apply keeps_bind; [apply keeps_rnd1|]. intros u2. apply keeps_bind; [apply keeps_rnd|]. intros sg. cbv zeta. apply HSB.
Qed.
Lemma lives_update_best m p s : inv s -> placed E A m s p -> seen s p -> lives true (update_best p) (fun p' s' => (placed E A m s' p' /\ p_sol p' = p_sol p) /\ seen s' p') s.
Proof.
  intros I HP [HK1 HK2]. pose proof HP as (HG & HB & _).
  destruct (known_view s _ (or_introl HG) HK1) as (b & a & x & HV & HL). destruct (known_view s _ HB HK2) as (b' & a' & x' & HV' & HL').
  assert (HR : returns (update_best p) s).
  { unfold returns, update_best. pose proof (fitness_eq _ _ _ _ _ HV) as H1. pose proof (fitness_eq _ _ _ _ _ HV') as H2. cbn in H1, H2.
    rewrite (bind_ok _ _ _ _ _ H1), (bind_ok _ _ _ _ _ H2). destruct (nlt (sfitness a') (sfitness a)); [|eexists _, _; reflexivity].
    rewrite (bind_ok _ _ _ _ _ (clone_eq _ _ _ _ _ (proj1 I) HV)). eexists _, _. reflexivity. }
  split; [|exact HR]. pose proof (safe_update_best E A m p s I HP) as HS. unfold L_Safe.safe in *.
  assert (HKp : keeps (update_best p)).
  { unfold update_best. apply keeps_bind; [apply keeps_fitness|]. intros f. apply keeps_bind; [apply keeps_fitness|]. intros fb. destruct (nlt fb f); [|apply keeps_ret].
    apply keeps_bind; [apply keeps_clone|intros c; apply keeps_ret]. }
  specialize (HKp s). destruct (update_best p s) as [[p'|e] s']; [|exact HS]. destruct HS as (G & H1 & H2 & f & fb & _ & _ & HC). cbn in HKp. split; [exact G|]. split; [auto|].
  split; [rewrite H2; auto|]. destruct HC as [[_ ->]|(_ & _ & _ & (bb & aa & (o & Ho1 & _ & Ho2) & _) & _)]; [auto|]. exists o, aa. auto.
Qed.
Lemma lives_swarm_step M c pop ps a s : smooth (ps_move c) -> ps <> [] -> inv s -> Forall (placed E A (ps_move c) s) ps -> Forall (seen s) ps -> map p_sol ps = pop ->
  lives false (swarm_step M c E pop (ps, a)) (fun z s' => Forall (placed E A (ps_move c) s') (fst z) /\ Forall (seen s') (fst z) /\ map p_sol (fst z) = pop /\ fst z <> []) s.
Proof.
  intros Hm HN I HP HS HMp. cbn [swarm_step]. eapply lives_bind; [apply lives_move; auto|]. intros ps1 s1 G1 [HV HK1]. cbv beta.
  pose proof (moved_placed _ _ _ _ _ _ HV) as HP1. pose proof (moved_sols _ _ _ _ _ _ HV) as HM1. pose proof (moved_bests _ _ _ _ _ _ HV) as HB1.
  eapply lives_bind; [apply lives_keeps; [apply lives_fit_all; [exact HM|inv_of G1|]|apply keeps_fit_all]|]. { rewrite <- HMp, <- HM1. eapply placed_good; eauto. }
  intros pop' s2 G2 ((-> & HG2 & HH2) & HK2). cbv beta. pose proof (grow_placeds _ _ _ _ _ _ _ G2 HP1) as HP2.
  assert (HS2 : Forall (seen s2) ps1).
  { assert (HA : Forall (known s2) (map p_sol ps1)) by (rewrite HM1; rewrite Forall_map; revert HS; apply Forall_impl; intros p [H _]; auto).
    assert (HB : Forall (known s2) (map p_best ps1)) by (rewrite HB1; rewrite Forall_map; revert HS; apply Forall_impl; intros p [_ H]; auto).
    rewrite Forall_map in HA, HB. rewrite Forall_forall in *. intros p Hp. split; [apply HA|apply HB]; exact Hp. }
  eapply lives_bind with (Q := fun ps' s' => Forall2 (fun p p' => (placed E A (ps_move c) s' p' /\ p_sol p' = p_sol p) /\ seen s' p') ps1 ps').
  - assert (HL : forall l s0, inv s0 -> Forall (placed E A (ps_move c) s0) l -> Forall (seen s0) l ->
       lives false (mmap update_best l) (fun ps' s' => Forall2 (fun p p' => (placed E A (ps_move c) s' p' /\ p_sol p' = p_sol p) /\ seen s' p') l ps') s0).
    { clear - n. induction l as [|p l IH]; intros s0 I0 Hp Hs; cbn [mmap]; [apply lives_ret; auto|]. inversion Hp as [|? ? Hp1 Hp2]; inversion Hs as [|? ? Hs1 Hs2]; subst.
      eapply lives_bind; [apply lives_keeps; [apply lives_weak, (lives_update_best (ps_move c)); auto|]|].
      { unfold update_best. apply keeps_bind; [apply keeps_fitness|]. intros f. apply keeps_bind; [apply keeps_fitness|]. intros fb. destruct (nlt fb f); [|apply keeps_ret].
        apply keeps_bind; [apply keeps_clone|intros c1; apply keeps_ret]. }
      intros p' t1 Gt1 [[[Ha Hb] Hc] HK]. cbv beta. eapply lives_bind; [apply lives_keeps; [apply IH; [inv_of Gt1|eapply grow_placeds; eauto|]|]|].
      - revert Hs2. apply Forall_impl. intros q [Hq1 Hq2]. split; auto.
      - apply keeps_mmap. intros q. unfold update_best. apply keeps_bind; [apply keeps_fitness|]. intros f. apply keeps_bind; [apply keeps_fitness|]. intros fb. destruct (nlt fb f); [|apply keeps_ret].
        apply keeps_bind; [apply keeps_clone|intros c1; apply keeps_ret].
      - intros ps' t2 Gt2 [HF HK']. apply lives_ret; [inv_of Gt2|]. constructor; [|exact HF]. split; [split; [eapply grow_placed; eauto|exact Hb]|]. destruct Hc as [Hc1 Hc2]. split; auto. }
    apply HL; [inv_of G2|exact HP2|exact HS2].
  - intros ps2 s3 G3 HF. cbv beta in *. apply lives_ret; [inv_of G3|]. cbn [fst].
    assert (HX : Forall (placed E A (ps_move c) s3) ps2 /\ Forall (seen s3) ps2 /\ map p_sol ps2 = map p_sol ps1).
    { clear - HF. induction HF as [|p p' l l' [[H1 H2] H3] _ (IH1 & IH2 & IH3)]; cbn; auto. split; [constructor; auto|]. split; [constructor; auto|congruence]. }
    destruct HX as (X1 & X2 & X3). split; auto. split; auto. split; [congruence|]. intros E0. subst ps2. rewrite HM1 in X3. destruct ps; [congruence|discriminate].
Qed.
Lemma lives_swarm_run M c ini pop s : smooth (ps_move c) -> (0 < ps_iter c)%nat -> inv s -> Forall (good s) pop -> pop <> [] ->
  lives false (swarm_run M c L E ini pop tt) (fun r s' => fst r <> []) s.
Proof.
  intros Hm H0 I HG HN. unfold swarm_run. eapply lives_bind; [apply lives_fit_all; auto|]. intros pop0 s0 G0 (-> & Ha & Hb). cbv beta.
  destruct (Nat.eqb_spec (ps_iter c) 0) as [E0|_]; [lia|]. eapply lives_bind.
  - apply lives_weak, (lives_mmap E A true (init_particle (ps_move c)) (fun r p s' => (placed E A (ps_move c) s' p /\ p_sol p = r) /\ (honest E s' r /\ honest E s' (p_best p)))); [inv_of G0| |].
    + intros r p s1 s2 G ((H1 & H2) & H3 & H4). split; [split; [eapply grow_placed; eauto|exact H2]|]. split; eapply grow_honest; eauto.
    + intros r s1 Hr G1. rewrite Forall_forall in Ha, Hb. pose proof (grow_good _ _ _ _ _ _ G1 (Ha r Hr)) as HGr. pose proof (grow_honest _ _ _ _ _ G1 (Hb r Hr)) as HHr.
      split; [|apply init_particle_returns; [inv_of G1|exact HGr|apply honest_known; exact HHr]].
      eapply safe_post; [apply safe_init_particle; [inv_of G1|exact HGr]|]. intros p s2 G2 (H1 & H2 & _ & _ & H5). split; auto. split; [eapply grow_honest; eauto|auto].
  - intros ps s1 G1 HF. cbv beta in *.
    assert (HX : Forall (placed E A (ps_move c) s1) ps /\ Forall (seen s1) ps /\ map p_sol ps = pop).
    { clear - HF. induction HF as [|r p l l' [[H1 H2] [H3 H4]] _ (IH1 & IH2 & IH3)]; cbn; auto. split; [constructor; auto|]. split; [constructor; auto|congruence].
      split; apply honest_known; [rewrite H2; exact H3|exact H4]. }
    destruct HX as (X1 & X2 & X3). assert (HNp : ps <> []) by (intros ->; cbn in X3; congruence).
    eapply lives_bind.
    + apply (lives_iterate E A false (swarm_step M c E pop) (fun z s' => Forall (placed E A (ps_move c) s') (fst z) /\ Forall (seen s') (fst z) /\ map p_sol (fst z) = pop /\ fst z <> [])); [inv_of G1|cbn; auto|].
      intros [q a] s2 I2 (H1 & H2 & H3 & H4). cbn [fst] in *. apply lives_swarm_step; auto.
    + intros z s2 G2 _. apply lives_ret; [inv_of G2|]. exact HN.
Qed.
End Swarm.
Lemma wolves_runs {L} (E : env L) M c : measurable E -> (0 < w_iter c)%nat -> (0 < w_size c)%nat -> (0 < w_leaders c)%nat -> (w_pos c = WCrossover -> (w_leaders c <= 32)%nat) -> runs E (wolves M c).
Proof.
  intros HM H1 H2 H3 H4. split; [intros i; exact H2|]. intros A ini s pop i I HG HN _. destruct i. cbn [orun wolves].
  destruct (lives_ok _ _ _ _ _ _ (lives_wolf_run E A HM M c ini pop s H1 H3 H4 I HG HN)) as (r & s' & E1 & _ & HQ). eauto.
Qed.
Lemma swarm_runs {L} (E : env L) M c : measurable E -> (0 < ps_iter c)%nat -> (0 < ps_size c)%nat -> smooth (ps_move c) -> runs E (swarm M c).
Proof.
  intros HM H1 H2 H3. split; [intros i; exact H2|]. intros A ini s pop i I HG HN _. destruct i. cbn [orun swarm].
  destruct (lives_ok _ _ _ _ _ _ (lives_swarm_run E A HM M c ini pop s H3 H1 I HG HN)) as (r & s' & E1 & _ & HQ). eauto.
Qed.
