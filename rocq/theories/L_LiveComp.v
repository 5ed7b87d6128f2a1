(* Composition that always returns. *)
From Coq Require Import Lia Permutation.
From Verif Require Import PyNum PyList PyMon PyRng L_Num L_List L_Rng L_Ranks M_Matching M_Rule M_Mixing L_Mixing L_MixingProps M_Solution S_Solution L_Heap L_HeapProps M_Composition
  PyStat L_Safe L_SafeFit L_Composition M_GenomeOps S_GenomeOps L_GenomeOps L_GenomeProps M_GA L_GA L_ShippedFit.
From Coq Require Import Lqa.

Definition returns {S T} (m : St S T) (s : S) : Prop := exists a s', m s = (Ok a, s').
(* every genome can be measured *)
Definition measurable {L} (E : env L) : Prop := forall bits g, length bits = length (epool E) ->
  exists a g', sol_fit L (emix E) (efit E) bits (epool E) (eX E) (ey E) g = (Ok a, g').
Definition picky {L} (E : env L) (s : selection) : Prop :=
  match s with
  | SelTournament k => (0 < k)%nat
  | SelRoulette => forall e k n, exists q, efit E e k n = Fin q /\ 0 <= q
  | _ => True
  end.

Section Live.
Context {K : skind} {L : learner}.
Variable E : env L.
Variable A : nat -> Prop.
Implicit Types s : hst K.
Local Notation safe := (safe E A).
Local Notation good := (good E A).
Local Notation inv := (inv A).
Local Notation grow := (grow E A).
Hypothesis HM : measurable E.

Definition lives {T} (h : bool) (m : HSt K T) (Q : T -> hst K -> Prop) s : Prop := safe h m Q s /\ returns m s.
Lemma lives_ok {T} h (m : HSt K T) Q s : lives h m Q s -> exists a s', m s = (Ok a, s') /\ grow h s s' /\ Q a s'.
Proof. intros [H (a & s' & E1)]. unfold L_Safe.safe in H. rewrite E1 in H. exists a, s'. tauto. Qed.
Lemma lives_bind {T U} h (m : HSt K T) (k : T -> HSt K U) Q Q' s :
  lives h m Q s -> (forall a s', grow h s s' -> Q a s' -> lives h (k a) Q' s') -> lives h (bind m k) Q' s.
Proof.
  intros HL HK. split.
  - eapply safe_bind; [apply HL|]. intros a s' G HQ. apply HK; assumption.
  - destruct (lives_ok _ _ _ _ HL) as (a & s' & E1 & G & HQ). destruct (HK a s' G HQ) as [_ (b & s2 & E2)]. exists b, s2. rewrite (bind_ok _ _ _ _ _ E1). exact E2.
Qed.
Lemma lives_post {T} h (m : HSt K T) (Q Q' : T -> hst K -> Prop) s : lives h m Q s -> (forall a s', grow h s s' -> Q a s' -> Q' a s') -> lives h m Q' s.
Proof. intros [H1 H2] HI. split; [eapply safe_post; eauto|exact H2]. Qed.
Lemma lives_ret {T} h (a : T) (Q : T -> hst K -> Prop) s : inv s -> Q a s -> lives h (ret a) Q s.
Proof. intros I H. split; [apply safe_ret; auto|]. exists a, s. reflexivity. Qed.
Lemma lives_weak {T} h (m : HSt K T) Q s : lives true m Q s -> lives h m Q s.
Proof. intros [H1 H2]. split; [apply safe_weak; exact H1|exact H2]. Qed.
Lemma lives_mmap {T U} h (f : T -> HSt K U) (Q : T -> U -> hst K -> Prop) l s :
  inv s -> (forall x y s1 s2, grow h s1 s2 -> Q x y s1 -> Q x y s2) -> (forall x s', In x l -> grow h s s' -> lives h (f x) (Q x) s') ->
  lives h (mmap f l) (fun ys s' => Forall2 (fun x y => Q x y s') l ys) s.
Proof.
  intros I HQ. revert s I. induction l as [|x l IH]; intros s I HF; [apply lives_ret; auto|]. cbn [mmap].
  eapply lives_bind; [apply HF; [left; auto|apply grow_refl; auto]|]. intros y s1 G1 HQ1. cbv beta. eapply lives_bind.
  - apply IH; [apply (grow_inv _ _ _ _ _ G1)|]. intros x' s' Hx G. apply HF; [right; auto|]. eapply grow_trans; eauto.
  - intros ys s2 G2 HQ2. apply lives_ret; [apply (grow_inv _ _ _ _ _ G2)|]. constructor; auto. eapply HQ; eauto.
Qed.
Lemma lives_times {T} h (m : HSt K T) (Q : T -> hst K -> Prop) k s :
  inv s -> (forall y s1 s2, grow h s1 s2 -> Q y s1 -> Q y s2) -> (forall s', grow h s s' -> lives h m Q s') ->
  lives h (times k m) (fun ys s' => length ys = k /\ Forall (fun y => Q y s') ys) s.
Proof.
  intros I HQ. revert s I. induction k as [|k IH]; intros s I HF; [apply lives_ret; auto|]. cbn [times].
  eapply lives_bind; [apply HF, grow_refl; auto|]. intros y s1 G1 HQ1. cbv beta. eapply lives_bind.
  - apply IH; [apply (grow_inv _ _ _ _ _ G1)|]. intros s' G. apply HF. eapply grow_trans; eauto.
  - intros ys s2 G2 [HL HQ2]. apply lives_ret; [apply (grow_inv _ _ _ _ _ G2)|]. split; [simpl; lia|]. constructor; auto. eapply HQ; eauto.
Qed.
Lemma lives_iterate {T} h (f : T -> HSt K T) (Q : T -> hst K -> Prop) k : forall x s,
  inv s -> Q x s -> (forall x s, inv s -> Q x s -> lives h (f x) Q s) -> lives h (iterate k f x) Q s.
Proof.
  induction k as [|k IH]; intros x s I HQ HF; cbn [iterate]; [apply lives_ret; auto|].
  eapply lives_bind; [apply HF; auto|]. intros x' s' G HQ'. cbv beta. apply IH; auto. apply (grow_inv _ _ _ _ _ G).
Qed.

Lemma lives_fit h s r : inv s -> good s r -> lives h (fit E r) (fun r' s' => r' = r /\ good s' r /\ honest E s' r) s.
Proof.
  intros I HG. split; [apply safe_fit; auto|]. pose proof HG as (_ & bits & a & x & HV & HL). pose proof (fit_eq E s r _ _ _ (proj1 I) HV) as H.
  destruct (HM bits (hrng s) HL) as (a' & g' & E1). rewrite E1 in H. destruct H as (s' & H & _). exists r, s'. exact H.
Qed.
Lemma lives_fit_all h s rs : inv s -> Forall (good s) rs ->
  lives h (fit_all E rs) (fun rs' s' => rs' = rs /\ Forall (good s') rs /\ Forall (honest E s') rs) s.
Proof.
  intros I HG. split; [apply safe_fit_all; auto|].
  assert (H : lives true (mmap (fit E) rs) (fun ys s' => Forall2 (fun x y => True) rs ys) s).
  { apply lives_mmap; [exact I|auto|]. intros x s' Hx G. eapply lives_post; [apply lives_fit; [apply (grow_inv _ _ _ _ _ G)|]|auto].
    eapply grow_good; [exact G|]. rewrite Forall_forall in HG. auto. }
  apply H.
Qed.
Lemma init_returns i k s : returns (init_call (K := K) i k) s.
Proof.
  destruct i as [|p]; cbn [init_call]; [eexists _, _; apply new_sol_eq|]. destruct (random_bits_eq k p s) as (bits & g & HB & _).
  unfold returns. rewrite (bind_ok _ _ _ _ _ HB). eexists _, _. apply new_sol_eq.
Qed.
Lemma lives_init h i s : inv s -> lives h (init_call i (length (epool E))) (fun r s' => good s' r) s.
Proof. intros I. split; [|apply init_returns]. eapply safe_post; [apply safe_init_call; exact I|]. intros r s' _ H. apply H. Qed.
Lemma lives_crossover h both x rate s a b : inv s -> good s a -> good s b -> lives h (crossover both x rate a b) (fun c s' => good s' c) s.
Proof.
  intros I HA HB. split; [eapply safe_post; [apply safe_crossover; auto|]; intros c s' _ H; apply H|].
  destruct HA as (_ & ba & aa & xa & Ha & HLa). destruct HB as (_ & bb & ab & xb & Hb & HLb).
  destruct (crossover_eq both x rate s a b ba aa xa bb ab xb (proj1 I) Ha Hb) as (c & s' & bits & ac & xc & HE & _); [lia|]. exists c, s'. exact HE.
Qed.
Lemma lives_flips h rate s r : inv s -> good s r -> lives h (bit_flips rate r) (fun c s' => good s' c) s.
Proof.
  intros I HG. split; [eapply safe_post; [apply safe_bit_flips; auto|]; intros c s' _ H; apply H|].
  destruct HG as (_ & bits & a & x & HV & _). eexists _, _. apply (bit_flips_eq rate s r bits a x (proj1 I) HV).
Qed.
Lemma pairs_in {T} (l : list T) p : In p (pairs l) -> In (fst p) l /\ In (snd p) l.
Proof.
  revert l. enough (H : forall n (l : list T), (length l <= n)%nat -> In p (pairs l) -> In (fst p) l /\ In (snd p) l) by (intros l; apply (H (length l)); lia).
  induction n as [|n IH]; intros [|a [|b l]] HL Hp; cbn in HL; try lia; try contradiction. cbn [pairs] in Hp. destruct Hp as [<-|Hp]; [cbn; auto|].
  apply IH in Hp; [|lia]. cbn. tauto.
Qed.
Lemma lives_offspring h cross parents s : inv s -> Forall (good s) parents ->
  (forall a b s', grow h s s' -> In a parents -> In b parents -> lives h (cross a b) (fun c s1 => good s1 c) s') -> returns (offspring cross parents) s.
Proof.
  intros I HG HC. unfold offspring.
  assert (H : lives h (mmap (fun p => let* c := cross (fst p) (snd p) in let* d := cross (snd p) (fst p) in ret [c; d]) (pairs parents)) (fun ys _ => Forall2 (fun _ _ => True) (pairs parents) ys) s).
  { apply lives_mmap; [exact I|auto|]. intros p s' Hp G. apply pairs_in in Hp as [H1 H2]. eapply lives_bind; [apply HC; auto|]. intros c s1 G1 _. cbv beta.
    eapply lives_bind; [apply HC; auto; eapply grow_trans; eauto|]. intros c2 s2 G2 _. apply lives_ret; [apply (grow_inv _ _ _ _ _ G2)|exact Logic.I]. }
  destruct H as [_ (a & s' & H)]. eexists _, _. rewrite (bind_ok _ _ _ _ _ H). reflexivity.
Qed.
Lemma lives_ranked h s rs : inv s -> Forall (good s) rs -> Forall (honest E s) rs -> lives h (by_fitness_desc rs) (fun rs' s' => s' = s /\ Permutation rs' rs) s.
Proof.
  intros I HG HH. split; [apply safe_by_fitness; auto|]. destruct (keyed_total s rs) as (ks & HK & _).
  { revert HH. apply Forall_impl. intros r Hr. apply (honest_has_fit E). exact Hr. }
  unfold returns, by_fitness_desc. rewrite (bind_ok _ _ _ _ _ HK). eexists _, _. reflexivity.
Qed.
Lemma honest_fits_list s rs : Forall (honest E s) rs -> exists fs, Forall2 (has_fit s) rs fs /\ Forall (fun f => exists e k j, f = efit E e k j) fs.
Proof.
  induction 1 as [|r rs (b & a & g & g' & HS & HL & HF) _ (fs & H1 & H2)]; [exists []; auto|]. exists (sfitness a :: fs). split; constructor; auto; [exists b, a; auto|].
  unfold sol_fit in HF. destruct (sol_predict _ _ _ _ _ _ _) as [[p|e] g2]; [|discriminate]. destruct (_ || _); [discriminate|]. injection HF as <- _. cbn. eauto.
Qed.
Lemma finite_list fs : Forall (fun f => exists q, f = Fin q /\ 0 <= q) fs -> exists qs, fs = map Fin qs /\ Forall (fun q => 0 <= q) qs.
Proof. induction 1 as [|f fs (q & -> & Hq) _ (qs & -> & H)]; [exists []; auto|]. exists (q :: qs). auto. Qed.
Lemma lives_select h k pop m s : inv s -> Forall (good s) pop -> Forall (honest E s) pop -> pop <> [] -> picky E k ->
  lives h (select k pop m) (fun r s' => length r = m /\ Forall (fun x => In x pop) r) s.
Proof.
  intros I HG HH HN HP. split; [apply safe_select; auto|].
  assert (HC : forall j s, returns (rnd (K := K) (choices pop j)) s).
  { intros j t. destruct (proj2 (choices_ok_iff pop j (hrng t)) (or_introl HN)) as (r & g' & E1). eexists _, _. rewrite rnd_eq, E1. reflexivity. }
  destruct (honest_fits_list s pop HH) as (fs & HF & HE). pose proof (fitnesses_eq s pop fs HF) as HFS.
  destruct k as [| | |k]; cbn [select].
  - apply HC.
  - assert (HQ : exists qs, fs = map Fin qs /\ Forall (fun q => 0 <= q) qs).
    { apply finite_list. revert HE. apply Forall_impl. intros f (e & kk & j & ->). apply HP. }
    destruct HQ as (qs & -> & HQ). destruct (Qlt_le_dec 0 (qsum qs)) as [Hlt|Hle].
    + destruct (select_roulette pop m s qs HF HQ Hlt) as (w & r & s' & HS & _). exists r, s'. exact HS.
    + unfold returns. rewrite (bind_ok _ _ _ _ _ HFS). unfold roulette_weights, nsum. destruct (nsum_fin qs 0) as (t & -> & Ht).
      pose proof (qsum_nonneg qs HQ) as H0. assert (neqb (Fin t) (Fin 0) = true) as -> by (cbn; apply qeq_iff; lra). apply HC.
  - unfold returns. rewrite (bind_ok _ _ _ _ _ HFS). rewrite rnd_eq. destruct (rank_weights_ok fs) as (H1 & H2 & H3).
    { intros ->. apply HN. inversion HF. reflexivity. }
    destruct (choices_p_total pop m (rank_weights fs) (hrng s)) as (r & g' & E1); auto.
    + rewrite H1. symmetry. apply (Forall2_len _ _ _ HF).
    + revert H2. apply Forall_impl. intros w Hw. lra.
    + rewrite E1. eexists _, _. reflexivity.
  - assert (HL : lives true (mmap (fun _ : nat => let* drawn := rnd (choices pop k) in fittest drawn) (seq 0 m)) (fun ys _ => Forall2 (fun _ _ => True) (seq 0 m) ys) s).
    { apply lives_mmap; [exact I|auto|]. intros x s' _ G. cbn in HP. pose proof (grow_honests _ _ _ _ _ G HH) as HH'. pose proof (grow_goods _ _ _ _ _ _ G HG) as HG'.
      eapply lives_bind with (Q := fun r s2 => r <> [] /\ Forall (fun x => In x pop) r).
      - split; [|apply HC]. destruct (proj2 (choices_ok_iff pop k (hrng s')) (or_introl HN)) as (r & g' & E1). apply safe_rnd; [apply (grow_inv _ _ _ _ _ G)|]. rewrite E1. cbn.
        apply choices_ok in E1 as [H1 H2]. split; [intros ->; cbn in H1; lia|exact H2].
      - intros r s2 G2 [H1 H2]. pose proof (grow_honests _ _ _ _ _ G2 HH') as HH2. pose proof (grow_goods _ _ _ _ _ _ G2 HG') as HG2. split.
        + eapply safe_post; [apply safe_fittest; [apply (grow_inv _ _ _ _ _ G2)|exact (Forall_incl _ _ _ HG2 H2)]|auto].
        + destruct (fittest_ok s2 r H1) as (b & E1 & _); [|exists b, s2; exact E1].
          pose proof (Forall_incl _ _ _ HH2 H2) as HHr. revert HHr. apply Forall_impl. intros z Hz. apply (honest_has_fit E). exact Hz. }
    apply HL.
Qed.

Lemma lives_ga_step c pop s : (0 < g_size c)%nat -> picky E (g_sel c) -> inv s -> Forall (good s) pop -> Forall (honest E s) pop -> pop <> [] ->
  lives true (ga_step c E pop) (fun pop' s' => Forall (good s') pop' /\ Forall (honest E s') pop' /\ pop' <> []) s.
Proof.
  intros Hsz Hsel I HG HH HN. split.
  { eapply safe_post; [apply safe_ga_step; auto|]. intros pop' s' _ (H1 & H2 & el & new & -> & _ & HL & _). split; [exact H1|]. split; [exact H2|].
    intros E0. apply app_eq_nil in E0 as [_ ->]. cbn in HL. lia. }
  unfold ga_step. enough (H : lives true (ga_step c E pop) (fun _ _ => True) s) by apply H. unfold ga_step.
  eapply lives_bind; [apply lives_ranked; auto|]. intros ranked s' _ (-> & HPm). cbv beta.
  eapply lives_bind; [apply lives_select; auto|]. intros parents s1 G1 [HLp HIp]. cbv beta. pose proof (grow_inv _ _ _ _ _ G1) as I1.
  assert (HGp : Forall (good s1) parents) by (eapply grow_goods; [exact G1|]; exact (Forall_incl _ _ _ HG HIp)).
  assert (HCr : forall a b s', grow true s1 s' -> In a parents -> In b parents -> lives true (crossover true (g_x c) (Fin (g_xrate c)) a b) (fun c0 s3 => good s3 c0) s').
  { intros a b s' G Ha Hb. apply lives_crossover; [apply (grow_inv _ _ _ _ _ G)| |]; eapply grow_good; try exact G; eapply Forall_In; eauto. }
  eapply lives_bind.
  { split; [|eapply lives_offspring; eauto]. apply safe_offspring; auto.
    intros a b s' G Ha Hb. apply safe_crossover; [apply (grow_inv _ _ _ _ _ G)| |]; eapply grow_good; try exact G; eapply Forall_In; eauto. }
  intros children s2 G2 [HLc HGc]. cbv beta. pose proof (grow_inv _ _ _ _ _ G2) as I2.
  assert (HGc' : Forall (good s2) children) by (eapply Forall_impl; [|exact HGc]; intros r H; apply H).
  eapply lives_bind with (Q := fun cs s' => s' = s2 /\ Forall (good s2) cs).
  { destruct (Nat.odd (g_size c)).
    - destruct (nth_error (rev parents) 0) as [p|] eqn:Ep; [|apply nth_error_None in Ep; rewrite rev_length in Ep; lia].
      eapply lives_bind with (Q := fun a s' => a = p /\ s' = s2).
      + split; [apply safe_lift; auto; cbn; auto|]. eexists _, _. reflexivity.
      + intros p' s' _ [-> ->]. apply lives_ret; auto. split; auto. apply Forall_app. split; auto. constructor; [|constructor]. eapply grow_good; [exact G2|].
        eapply Forall_In; [exact HGp|]. apply in_rev. eapply nth_error_In; eauto.
    - apply lives_ret; auto. }
  intros children' s' _ (-> & HGc2). cbv beta. eapply lives_bind.
  { apply (lives_mmap true (bit_flips (Fin (g_mrate c))) (fun _ r s' => good s' r)); [exact I2| |].
    - intros x y t1 t2 G H. eapply grow_good; eauto.
    - intros x s' Hx G. apply lives_flips; [apply (grow_inv _ _ _ _ _ G)|]. eapply grow_good; [exact G|]. eapply Forall_In; eauto. }
  intros mutated s3 G3 HMut. cbv beta. eapply lives_post; [apply lives_fit_all; [apply (grow_inv _ _ _ _ _ G3)|]|auto].
  apply Forall_app. split.
  - apply Forall_firstn. eapply grow_goods; [exact (grow_trans _ _ _ _ _ _ G1 (grow_trans _ _ _ _ _ _ G2 G3))|]. eapply Permutation_Forall; [symmetry; exact HPm|exact HG].
  - clear - HMut. induction HMut; constructor; auto.
Qed.
Lemma lives_ga_run c ini pop s : (0 < g_size c)%nat -> picky E (g_sel c) -> inv s -> Forall (good s) pop -> pop <> [] ->
  lives true (ga_run c L E ini pop tt) (fun r s' => fst r <> []) s.
Proof.
  intros Hsz Hsel I HG HN. unfold ga_run. eapply lives_bind; [apply lives_fit_all; auto|]. intros pop0 s0 G0 (-> & H1 & H2). cbv beta.
  eapply lives_bind.
  - apply (lives_iterate true (ga_step c E) (fun p s' => Forall (good s') p /\ Forall (honest E s') p /\ p <> [])); [apply (grow_inv _ _ _ _ _ G0)|auto|].
    intros p s1 I1 (Hp1 & Hp2 & Hp3). apply lives_ga_step; auto.
  - intros p s1 G1 (_ & _ & H). apply lives_ret; [apply (grow_inv _ _ _ _ _ G1)|]. exact H.
Qed.
Lemma lives_rs_run ni size ini pop s : (0 < ni)%nat -> (0 < size)%nat -> inv s -> Forall (good s) pop ->
  lives true (rs_run ni size L E ini pop tt) (fun r s' => fst r <> []) s.
Proof.
  intros Hni Hsz I HG. unfold rs_run. eapply lives_bind; [apply lives_fit_all; auto|]. intros pop0 s0 G0 _. cbv beta.
  pose proof (grow_inv _ _ _ _ _ G0) as I0. eapply lives_bind.
  - apply (lives_times true (let* sols := times ni (let* r := init_call ini (length (epool E)) in fit E r) in fittest sols) (fun r s' => True)); auto.
    intros s1 G1. pose proof (grow_inv _ _ _ _ _ G1) as I1. eapply lives_bind.
    + apply (lives_times true (let* r := init_call ini (length (epool E)) in fit E r) (fun r s' => good s' r /\ honest E s' r)); auto.
      * intros y s2 s3 G [H1 H2]. split; [eapply grow_good; eauto|eapply grow_honest; eauto].
      * intros s2 G2. eapply lives_bind; [apply lives_init; apply (grow_inv _ _ _ _ _ G2)|].
        intros r s3 G3 Hr. cbv beta. eapply lives_post; [apply lives_fit; [apply (grow_inv _ _ _ _ _ G3)|exact Hr]|].
        intros r' s4 _ (-> & H1 & H2). auto.
    + intros sols s2 G2 [HL HS]. cbv beta in *. split.
      * eapply safe_post; [apply safe_fittest; [apply (grow_inv _ _ _ _ _ G2)|]|auto]. eapply Forall_impl; [|exact HS]. intros r H; apply H.
      * destruct (fittest_ok s2 sols) as (b & E1 & _); [intros ->; cbn in HL; lia| |exists b, s2; exact E1]. eapply Forall_impl; [|exact HS]. intros r [_ H]. apply (honest_has_fit E). exact H.
  - intros new s1 G1 [HL _]. cbv beta in *. apply lives_ret; [apply (grow_inv _ _ _ _ _ G1)|]. cbn [fst]. intros ->. cbn in HL. lia.
Qed.
End Live.

(* ----- the step as a whole ----- *)
Definition runs {K L} (E : env L) (O : optimizer K) : Prop :=
  (forall i, (0 < osize O i)%nat) /\
  forall (A : nat -> Prop) ini (s : hst K) pop i, inv A s -> Forall (good E A s) pop -> pop <> [] -> epool E <> [] ->
    exists r s', orun O L E ini pop i s = (Ok r, s') /\ fst r <> [].
(* the same for populations of at least lo solutions and attributes that satisfy J *)
Definition runs_from {K L} (lo : nat) (E : env L) (O : optimizer K) (J : ostate O -> nat -> Prop) : Prop :=
  (forall i, (0 < osize O i)%nat /\ (lo <= osize O i)%nat) /\
  forall (A : nat -> Prop) ini (s : hst K) pop i, inv A s -> Forall (good E A s) pop -> pop <> [] -> (lo <= length pop)%nat -> J i (length (epool E)) -> epool E <> [] ->
    exists r s', orun O L E ini pop i s = (Ok r, s') /\ fst r <> [].
Lemma runs_any {K L} (E : env L) (O : optimizer K) J : runs E O -> runs_from 1 E O J.
Proof. intros [H1 H2]. split; [intros i; specialize (H1 i); lia|]. intros. eapply H2; eauto. Qed.
Lemma ga_runs {L} (E : env L) c : measurable E -> (0 < g_size c)%nat -> picky E (g_sel c) -> runs E (ga c).
Proof.
  intros HM H1 H2. split; [intros i; exact H1|]. intros A ini s pop i I HG HN _. destruct i. cbn [orun ga].
  destruct (lives_ok _ _ _ _ _ _ (lives_ga_run E A HM c ini pop s H1 H2 I HG HN)) as (r & s' & E1 & _ & HQ). eauto.
Qed.
Lemma rs_runs {L} (E : env L) ni size : measurable E -> (0 < ni)%nat -> (0 < size)%nat -> runs E (rs ni size).
Proof.
  intros HM H1 H2. split; [intros i; exact H2|]. intros A ini s pop i I HG HN _. destruct i. cbn [orun rs].
  destruct (lives_ok _ _ _ _ _ _ (lives_rs_run E A HM ni size ini pop s H1 H2 I HG)) as (r & s' & E1 & _ & HQ). eauto.
Qed.
Lemma times_len {K T} (m : HSt K T) k : forall s xs s', times k m s = (Ok xs, s') -> length xs = k.
Proof.
  induction k as [|k IH]; intros s xs s' H; [injection H as <- _; reflexivity|]. cbn [times] in H.
  destruct (m s) as [[x|e] s1] eqn:E1; [rewrite (bind_ok _ _ _ _ _ E1) in H|rewrite (bind_raise _ _ _ _ _ E1) in H; discriminate].
  destruct (times k m s1) as [[ys|e] s2] eqn:E2; [rewrite (bind_ok _ _ _ _ _ E2) in H|rewrite (bind_raise _ _ _ _ _ E2) in H; discriminate].
  injection H as <- _. cbn. f_equal. eapply IH; eauto.
Qed.
Section Step.
Context {K : skind} {L : learner}.
Variable E : env L.
Variable O : optimizer K.
Variable Iok : ostate O -> nat -> Prop.
Hypothesis HO : contract_for E O Iok.
Hypothesis HM : measurable E.
Variable lo : nat.
Hypothesis HR : runs_from lo E O Iok.
Let n := length (epool E).
Lemma optimize_lives c m g (st : comp O) (s : hst K) : cinv Iok m s st -> (m <= n)%nat -> (carchive c = false -> carch st = []) -> (lo <= 1)%nat \/ cwarm c = false ->
  exists st' s', optimize O c E g st s = (Ok st', s') /\ cpop st' <> [].
Proof.
  intros HC Hm Hca Hlo. pose proof (optimize_step E O Iok HO c m g st s HC Hm Hca) as HST.
  enough (H : exists st' s', optimize O c E g st s = (Ok st', s') /\ cpop st' <> []) by exact H. clear HST.
  unfold optimize. rewrite (bind_ok _ _ _ tt (with_r s g)) by reflexivity. fold n.
  assert (HC0 : cinv Iok m (with_r s g) st) by exact HC.
  destruct (phase_init E O Iok c m st (with_r s g) HC0 Hm) as (pop & s1 & HE1 & W1 & HP1 & HA1 & HD1).
  assert (HNP : pop <> [] /\ (lo <= length pop)%nat).
  { unfold init_population in HE1. destruct (proj1 HR (cint st)) as [HZ HZl].
    assert (HT : length pop = osize O (cint st) -> pop <> [] /\ (lo <= length pop)%nat) by (intros HT; split; [intros ->; cbn in HT; lia|lia]).
    destruct (cpop st) as [|p0 ps] eqn:EP; [rewrite orb_true_r in HE1; apply HT; apply times_len in HE1; exact HE1|rewrite orb_false_r in HE1].
    destruct (cwarm c) eqn:ECw; cbn [negb] in HE1; [|apply HT; apply times_len in HE1; exact HE1].
    assert (HNn : pop <> []).
    { intros ->. destruct (pad_pop (cinit c) n (p0 :: ps) (with_r s g) (proj1 HC)) as (s' & HE & _); [|unfold n in HE; rewrite HE in HE1; discriminate].
      intros r Hr. destruct HC as (_ & HP & _). rewrite EP, Forall_forall in HP. apply (sized_upto m); [apply HP; exact Hr|exact Hm]. }
    split; [exact HNn|]. destruct Hlo as [Hlo|Hlo]; [|congruence]. destruct pop; [congruence|cbn; lia]. }
  destruct HNP as [HNP HLP].
  rewrite (bind_ok _ _ _ _ _ HE1). destruct HC as (W & HP & HA & HD & HL1 & HI).
  assert (HAs1 : Forall (sized m s1) (carch st)).
  { apply Forall_forall. intros r Hr. rewrite Forall_forall in HA. apply (sized_vw m s); [apply HA1; auto|auto]. }
  assert (H2 : exists u s2, (if carchive c then miter (pad_zero n) (carch st) ;; fit_all E (carch st) ;; ret tt else ret tt) s1 = (Ok u, s2) /\
               (wf s2 /\ (forall r, In r pop -> vw s2 r = vw s1 r) /\ Forall (sized n s2) (carch st) /\ Forall (honest E s2) (carch st))).
  { destruct (carchive c) eqn:EC.
    - pose proof (phase_archive E m (carch st) pop s1 W1 HP1 HAs1 Hm HD1) as HPA. cbv zeta in HPA. fold n in HPA.
      enough (HRt : returns (miter (pad_zero n) (carch st) ;; fit_all E (carch st) ;; ret tt) s1).
      { destruct HRt as (u & s2 & E2). rewrite E2 in HPA. exists u, s2. split; [exact E2|]. tauto. }
      destruct (pad_arch n (carch st) s1 W1) as (s2 & HE2 & W2 & HLen2 & _ & HS2 & HO2).
      { intros r Hr. rewrite Forall_forall in HAs1. apply (sized_upto m); auto. }
      unfold returns. rewrite (bind_ok _ _ _ _ _ HE2).
      assert (I2 : inv nobody s2) by (apply inv_nobody; exact W2).
      assert (HG2 : Forall (good E nobody s2) (carch st)).
      { apply Forall_forall. intros r Hr. split; [intros []|]. rewrite Forall_forall in HAs1. destruct (HAs1 r Hr) as (b & a & x & HV & HLb). exists (padn n b), a, x.
        rewrite (HS2 _ _ _ _ Hr HV). split; auto. apply padn_length. lia. }
      destruct (lives_fit_all E nobody HM true s2 (carch st) I2 HG2) as [_ (a & s3 & E3)]. rewrite (bind_ok _ _ _ _ _ E3). eexists _, _. reflexivity.
    - rewrite (Hca eq_refl) in *. exists tt, s1. split; [reflexivity|]. auto. }
  destruct H2 as (u & s2 & E2 & W2 & HV2 & HA2 & HH2). rewrite (bind_ok _ _ _ _ _ E2). clear E2.
  set (A := fun r => In r (carch st)).
  assert (I2 : inv A s2). { split; auto. intros r Hr. rewrite Forall_forall in HA2. apply (sized_live n); apply HA2; exact Hr. }
  assert (HG2 : Forall (good E A s2) pop).
  { apply Forall_forall. intros r Hr. split; [apply HD1; auto|]. rewrite Forall_forall in HP1. apply (sized_vw n s1); [apply HV2; auto|apply HP1; auto]. }
  assert (HI2 : Iok (cint st) n) by (apply (proj1 HO _ m); auto).
  assert (H3 : forall P, P = epool E -> exists r s', (match P with
       | [] => let* r := init_call (cinit c) n in let* r' := fit E r in ret ([r'], cint st)
       | _ :: _ => orun O L E (cinit c) pop (cint st) end) s2 = (Ok r, s') /\ fst r <> [] /\
      (grow E A false s2 s' /\ Forall (good E A s') (fst r) /\ Forall (honest E s') (fst r))).
  { intros [|x l] EP.
    - assert (HLv : lives E A false (let* r := init_call (cinit c) n in let* r' := fit E r in ret ([r'], cint st))
         (fun r s' => fst r <> [] /\ Forall (good E A s') (fst r) /\ Forall (honest E s') (fst r)) s2).
      { eapply lives_bind; [apply lives_init; auto|]. intros r s' G Hr.
        eapply lives_bind; [apply lives_fit; auto; apply (grow_inv _ _ _ _ _ G)|]. intros r' s'' G' (-> & Hg & Hh).
        apply lives_ret; [apply (grow_inv _ _ _ _ _ G')|]. cbn [fst]. split; [discriminate|]. split; constructor; auto. }
      destruct (lives_ok _ _ _ _ _ _ HLv) as (r & s' & E3 & G & Q1 & Q2 & Q3). exists r, s'. auto.
    - assert (HNE : epool E <> []) by (rewrite <- EP; discriminate). destruct (proj2 HR A (cinit c) s2 pop (cint st) I2 HG2 HNP HLP HI2 HNE) as (r & s' & E3 & HQ).
      pose proof (proj2 HO A (cinit c) s2 pop (cint st) I2 HG2 HI2 HNE) as HS. unfold safe in HS. rewrite E3 in HS. exists r, s'. tauto. }
  destruct (H3 _ eq_refl) as ([pop' i'] & s3 & E3 & HNp & G3 & HG3 & HH3). cbn [fst] in *.
  rewrite (bind_ok _ _ _ _ _ E3). clear E3 H3.
  assert (HA3 : Forall (sized n s3) (carch st)).
  { apply Forall_forall. intros r Hr. rewrite Forall_forall in HA2. apply (sized_vw n s2); [apply G3; exact Hr|auto]. }
  assert (HHA3 : Forall (honest E s3) (carch st)).
  { apply Forall_forall. intros r Hr. rewrite Forall_forall in HH2. apply (honest_core E s2); [|auto]. apply vw_core. apply G3; exact Hr. }
  destruct (carchive c) eqn:EC.
  - assert (W3 : wf s3) by (apply G3).
    assert (I3 : inv nobody s3) by (apply inv_nobody; exact W3).
    assert (HLv : lives E nobody true (let* a := archive_call (carch st) pop' in fit_all E a) (fun _ _ => True) s3).
    { assert (HGA : Forall (good E nobody s3) (carch st)) by (revert HHA3; apply Forall_impl; intros r Hr; apply honest_good; exact Hr).
      assert (HGP : Forall (good E nobody s3) pop') by (revert HH3; apply Forall_impl; intros r Hr; apply honest_good; exact Hr).
      assert (HCl : forall r, honest E s3 r -> lives E nobody true (clone r) (fun c s' => good E nobody s' c) s3).
      { intros r Hr. split; [eapply safe_post; [apply safe_clone; [exact I3|apply honest_good; exact Hr]|]; intros c' s' _ H; apply H|].
        destruct Hr as (b & a & g1 & g2 & HS & _). apply shows_vw in HS as (x & HS). eexists _, _. apply (clone_eq _ _ _ _ _ W3 HS). }
      assert (HFi : forall r, honest E s3 r -> lives E nobody true (fitness r) (fun f s' => s' = s3) s3).
      { intros r Hr. split; [eapply safe_post; [apply safe_fitness; [exact I3|apply honest_good; exact Hr]|]; intros c' s' _ H; apply H|].
        destruct Hr as (b & a & g1 & g2 & HS & _). apply shows_vw in HS as (x & HS). eexists _, _. apply (fitness_eq _ _ _ _ _ HS). }
      eapply lives_bind with (Q := fun a s' => Forall (good E nobody s') a).
      - unfold archive_call. eapply lives_bind with (Q := fun b s' => s' = s3 /\ In b pop').
        + split; [eapply safe_post; [apply safe_fittest; auto|]; intros b s' _ (H1 & H4 & _); auto|].
          destruct (fittest_ok s3 pop' HNp) as (b & E4 & _); [|exists b, s3; exact E4]. revert HH3. apply Forall_impl. intros r Hr. apply (honest_has_fit E). exact Hr.
        + intros b s' _ [-> Hb]. assert (HHb : honest E s3 b) by (rewrite Forall_forall in HH3; auto). destruct (carch st) as [|a rest].
          * eapply lives_bind; [apply HCl; exact HHb|]. intros c' s' G Hc'. apply lives_ret; [apply (grow_inv _ _ _ _ _ G)|]. constructor; [exact Hc'|constructor].
          * eapply lives_bind; [apply HFi; apply (Forall_inv HHA3)|]. intros fa s' _ ->. eapply lives_bind; [apply HFi; exact HHb|]. intros fb s' _ ->.
            destruct (nlt fa fb); [|apply lives_ret; auto]. eapply lives_bind; [apply HCl; exact HHb|]. intros c' s' G Hc'. apply lives_ret; [apply (grow_inv _ _ _ _ _ G)|].
            apply Forall_app. split; [|constructor; [exact Hc'|constructor]]. eapply grow_goods; [exact G|]. inversion HGA; assumption.
      - intros a s' G Ha. eapply lives_post; [apply lives_fit_all; [exact HM|apply (grow_inv _ _ _ _ _ G)|exact Ha]|auto]. }
    destruct (lives_ok _ _ _ _ _ _ HLv) as (a & s4 & E4 & _). rewrite (bind_ok _ _ _ _ _ E4). eexists _, _. split; [reflexivity|]. exact HNp.
  - rewrite (bind_ok _ _ _ [] s3) by reflexivity. eexists _, _. split; [reflexivity|]. exact HNp.
Qed.
(* the elitist can be read *)
Lemma elitist_lives (st : comp O) (s : hst K) : cpop st <> [] -> Forall (honest E s) (cpop st) -> Forall (honest E s) (carch st) ->
  exists r, elitist st s = (Ok (Some r), s) /\ In r (cpop st ++ carch st).
Proof.
  intros HN H1 H2. unfold elitist. destruct (cpop st) as [|p ps] eqn:EP; [congruence|]. rewrite <- EP in *.
  destruct (fittest_ok s (cpop st ++ carch st)) as (r & E1 & HIn).
  { rewrite EP. discriminate. }
  { apply Forall_app. split; [revert H1|revert H2]; apply Forall_impl; intros r Hr; apply (honest_has_fit E); exact Hr. }
  exists r. rewrite (bind_ok _ _ _ _ _ E1). auto.
Qed.
End Step.
