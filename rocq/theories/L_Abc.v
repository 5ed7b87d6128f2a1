(* The bee colony. *)
From Coq Require Import Lia Permutation.
From Verif Require Import PyNum PyList PyMon PyRng PyStat L_Num L_List L_Rng M_Matching M_Rule M_Mixing L_Mixing M_Solution S_Solution
  L_Heap L_HeapProps M_Composition L_Safe L_SafeFit L_Composition M_GenomeOps S_GenomeOps L_GenomeOps L_Held M_Abc S_Abc.
From Coq Require Import Lqa.

Lemma mem_iff i l : mem i l = true <-> In i l.
Proof.
  unfold mem. rewrite existsb_exists. split; [intros (x & Hx & E); apply Nat.eqb_eq in E; subst; auto|]. intros H. exists i. split; auto. apply Nat.eqb_refl.
Qed.
Lemma NoDup_front {A} (a b : list A) : NoDup (a ++ b) -> NoDup a.
Proof.
  induction a as [|x a IH]; intros H; [constructor|]. inversion H as [|? ? H1 H2]; subst. constructor; auto. intros Hi. apply H1. apply in_or_app; auto.
Qed.
Section Bees.
Context {L : learner}.
Variable E : env L.
Variable A : nat -> Prop.
Implicit Types s : hst plain.
Let n := length (epool E).
Local Notation safe := (safe E A).
Local Notation good := (good E A).
Local Notation inv := (inv A).
Local Notation held := (held E A).

Lemma safe_food_bits h M f own other s : inv s -> length own = n -> length other = n ->
  safe h (food_bits M f own other) (fun b _ => length b = n /\ neighbour f own other b) s.
Proof.
  intros I H1 H2. assert (HC : length (combine own other) = n) by (rewrite combine_length; lia). destruct f as [| |rate]; cbn [food_bits].
  - eapply safe_bind; [apply safe_draws; auto|]. intros qs s1 G1 HL. cbv beta zeta in *.
    eapply safe_post; [apply safe_sigmoid_binarize; inv_of G1|]. intros b s2 _ Hb.
    assert (length b = n) by (rewrite Hb, map2_length; rewrite map_length; lia). split; auto. split; [lia|exact Logic.I].
  - eapply safe_bind; [apply safe_draws; auto|]. intros qs s1 G1 HL. cbv beta in *.
    apply safe_ret; [inv_of G1|]. split; [rewrite map2_length; lia|]. split; [rewrite map2_length; lia|].
    intros i Ho Ht. assert (Hi : (i < length qs)%nat) by (rewrite HL; apply nth_error_Some; congruence).
    destruct (nth_error qs i) as [q|] eqn:Eq; [|apply nth_error_None in Eq; lia].
    rewrite (map2_nth _ _ _ _ q (false, false) Eq); [|apply combine_nth2; auto]. cbn. rewrite andb_false_r. reflexivity.
  - cbv zeta. destruct (Z.ltb_spec (Qceiling (qofnat (length own) * rate)) 0) as [|Hpos]; [apply safe_raise; notbad|].
    eapply safe_bind; [apply safe_sample; auto|]. intros dims s1 G1 [HD (rest & HP)]. cbv beta.
    apply safe_ret; [inv_of G1|]. split; [rewrite mapi_length; auto|]. split; [rewrite mapi_length; lia|].
    exists dims. split.
    { pose proof (seq_NoDup (length own) 0) as HN. apply (Permutation_NoDup HP) in HN. apply NoDup_front in HN. exact HN. }
    split.
    { apply Forall_forall. intros i Hi. assert (In i (seq 0 (length own))) as Hs.
      { apply (Permutation_in _ (Permutation_sym HP)). apply in_or_app; auto. } apply in_seq in Hs. lia. }
    split.
    { rewrite HD. unfold qofnat at 2 4. rewrite Z2Nat.id by exact Hpos. split; [apply Qle_ceiling|].
      pose proof (Qceiling_lt (qofnat (length own) * rate)) as HQ.
      assert (HE : inject_Z (Qceiling (qofnat (length own) * rate) - 1) == inject_Z (Qceiling (qofnat (length own) * rate)) - 1).
      { unfold Z.sub. rewrite inject_Z_plus. reflexivity. } rewrite HE in HQ. lra. }
    intros i. rewrite mapi_nth. destruct (nth_error (combine own other) i) as [[x y]|] eqn:EC.
    + destruct (combine_nth_error _ _ _ _ _ EC) as [Hx Hy]. cbn [option_map fst snd]. split; intros Hi.
      * rewrite (proj2 (mem_iff i dims) Hi). auto.
      * destruct (mem i dims) eqn:Em; auto. apply mem_iff in Em. contradiction.
    + cbn [option_map]. apply nth_error_None in EC. split; intros _; symmetry; apply nth_error_None; lia.
Qed.
Lemma safe_food_call h M f own other s : inv s -> held s own -> held s other ->
  safe h (food_call M f own other) (fun c s' => good s' c /\ ~ live s c /\
    exists bo ao bt at' b, shows s own bo ao /\ shows s other bt at' /\ shows s' c b None /\ neighbour f bo bt b) s.
Proof.
  intros I H1 H2. unfold food_call. eapply safe_bind; [apply safe_genome_held; auto|]. intros bo s0 _ (-> & Ho & ao & HSo). cbv beta.
  eapply safe_bind; [apply safe_genome_held; eauto|]. intros bt s0 _ (-> & Ht & at' & HSt). cbv beta.
  eapply safe_bind; [apply safe_food_bits; eauto|]. intros bits s1 G1 [Hb Hn]. cbv beta in *.
  eapply safe_post; [apply safe_clone_with_held; [inv_of G1|eapply grow_held; eauto|exact Hb]|].
  intros c s2 G2 (Hc & Hl & Hs). split; auto. split; [|exists bo, ao, bt, at', bits; auto].
  intros Hl0. apply Hl. unfold live in *. pose proof (proj1 (proj2 G1)). lia.
Qed.

(* the outcome of one comparison *)
Definition contest s (r : nat) (f f' : source) : Prop :=
  exists fn fo, has_fit s r fn /\ has_fit s (src f) fo /\ f' = if nlt fo fn then mkSrc r 0 else mkSrc (src f) (S (trials f)).
Lemma safe_greedy h news : forall fs s, inv s -> Forall (held s) news -> Forall (fun f => held s (src f)) fs ->
  safe h (greedy_update news fs) (fun fs' s' => s' = s /\ length fs' = length fs /\
    forall i f, nth_error fs i = Some f -> exists f', nth_error fs' i = Some f' /\
      match nth_error news i with Some r => contest s r f f' | None => f' = f end) s.
Proof.
  induction news as [|r news IH]; intros fs s I HN HF.
  - cbn [greedy_update]. apply safe_ret; auto. split; auto. split; auto. intros i f Hf. exists f. split; auto. destruct i; reflexivity.
  - destruct fs as [|f fs]; cbn [greedy_update].
    { apply safe_ret; auto. split; auto. split; auto. intros [|i] f Hf; discriminate. }
    inversion HN as [|? ? HN1 HN2]; subst. inversion HF as [|? ? HF1 HF2]; subst.
    eapply safe_bind; [apply safe_fitness_held; eauto|]. intros fn s0 _ (-> & Hfn). cbv beta.
    eapply safe_bind; [apply safe_fitness_held; eauto|]. intros fo s0 _ (-> & Hfo). cbv beta zeta.
    eapply safe_bind; [apply IH; auto|]. intros fs' s0 _ (-> & HL & Hi). cbv beta. apply safe_ret; auto.
    split; auto. split; [simpl; lia|]. intros [|i] f0 Hf0; cbn in *.
    + inversion Hf0; subst. eexists. split; [reflexivity|]. exists fn, fo. auto.
    + apply Hi; auto.
Qed.

(* one phase *)
Definition visited s s' (j : nat) (i : nat) (f f' : source) : Prop :=
  (j <= i)%nat /\ f' = f \/
  (i < j)%nat /\ exists r, good s' r /\ honest E s' r /\ ~ live s r /\ contest s' r f f'.

Lemma safe_bee_phase M c fs others s : inv s -> Forall (fun f => held s (src f)) fs -> Forall (held s) others ->
  safe true (bee_phase M c E fs others) (fun fs' s' => length fs' = length fs /\
    forall i f, nth_error fs i = Some f -> exists f', nth_error fs' i = Some f' /\ visited s s' (length others) i f f') s.
Proof.
  intros I HF HO. unfold bee_phase.
  eapply safe_bind.
  { apply (safe_mmap E A true _ (fun (p : source * nat) (r : nat) s' => good s' r /\ honest E s' r /\ ~ live s r)); auto.
    - intros p r s1 s2 G (H1 & H2 & H3). split; [eapply grow_good; eauto|]. split; [eapply grow_honest; eauto|auto].
    - intros [f o] s1 Hp G1. pose proof (grow_inv _ _ _ _ _ G1) as I1. cbn [fst snd].
      pose proof (in_combine_l _ _ _ _ Hp) as Hf. pose proof (in_combine_r _ _ _ _ Hp) as Ho.
      eapply safe_bind; [apply safe_food_call; [exact I1| |]; (eapply grow_held; [exact G1|])|].
      + rewrite Forall_forall in HF. apply (HF f Hf).
      + rewrite Forall_forall in HO. apply (HO o Ho).
      + intros r s2 G2 (Hr & Hl & _). cbv beta. eapply safe_post; [apply safe_fit; [inv_of G2|exact Hr]|].
        intros r' s3 G3 (-> & H1 & H2). split; auto. split; auto. intros Hl0. apply Hl. unfold live in *. pose proof (proj1 (proj2 G1)). lia. }
  intros news s1 G1 HN. cbv beta in *.
  assert (HN1 : Forall (held s1) news).
  { clear - HN. induction HN as [|p r ps rs (H & _) _ IH]; constructor; auto. left; auto. }
  assert (HLn : length news = Nat.min (length fs) (length others)).
  { rewrite <- (Forall2_length _ _ _ HN), combine_length. reflexivity. }
  eapply safe_post; [apply safe_greedy; [inv_of G1|exact HN1|]|].
  { revert HF. apply Forall_impl. intros f. eapply grow_held; eauto. }
  intros fs' s2 _ (-> & HL & Hi). split; auto. intros i f Hf. destruct (Hi i f Hf) as (f' & Hf' & HC). exists f'. split; auto.
  destruct (nth_error news i) as [r|] eqn:Er.
  - right. assert (i < length news)%nat by (apply nth_error_Some; congruence). split; [lia|].
    destruct (Forall2_nth2 _ _ _ _ _ HN Er) as (p & _ & H1 & H2 & H3). exists r. auto.
  - left. apply nth_error_None in Er. assert (i < length fs)%nat by (apply nth_error_Some; congruence). split; [lia|auto].
Qed.

Lemma contest_src s r f f' : contest s r f f' -> src f' = r \/ src f' = src f.
Proof. intros (fn & fo & _ & _ & ->). destruct (nlt fo fn); auto. Qed.

Definition own s f : Prop := good s (src f) /\ honest E s (src f).
Lemma phase_own s s' j fs fs' : grow E A true s s' -> Forall (own s) fs -> length fs' = length fs ->
  (forall i f, nth_error fs i = Some f -> exists f', nth_error fs' i = Some f' /\ visited s s' j i f f') -> Forall (own s') fs'.
Proof.
  intros G HF HL HV. apply all_nth. intros i f' Hf'. destruct (nth_len fs fs' i f') as (f & Hf); auto.
  destruct (HV i f Hf) as (f2 & Hf2 & Hv). assert (f2 = f') by congruence. subst f2.
  assert (Hof : own s' f). { rewrite Forall_forall in HF. destruct (HF f) as [H1 H2]; [eapply nth_error_In; eauto|].
    split; [eapply grow_good; eauto|eapply grow_honest; eauto]. }
  destruct Hv as [[_ ->]|(_ & r & Hg & Hh & _ & HC)]; auto. unfold own. destruct (contest_src _ _ _ _ HC) as [-> | ->]; auto.
Qed.

(* scouts *)
Definition scouted c s s' (f f' : source) : Prop :=
  f' = f /\ (trials f < be_limit c)%nat \/
  (be_limit c <= trials f)%nat /\ trials f' = 0%nat /\ ~ live s (src f') /\ good s' (src f') /\ honest E s' (src f').
Lemma safe_scout c ini f s : inv s -> safe true (scout c E ini f) (fun f' s' => scouted c s s' f f') s.
Proof.
  intros I. unfold scout. destruct (Nat.leb_spec (be_limit c) (trials f)) as [H|H].
  - eapply safe_bind; [apply safe_init_call; auto|]. intros r s1 G1 (Hr & Hl & _). cbv beta.
    eapply safe_bind; [apply safe_fit; [inv_of G1|exact Hr]|]. intros r' s2 G2 (-> & H1 & H2). cbv beta.
    apply safe_ret; [inv_of G2|]. right. cbn [src trials]. auto.
  - apply safe_ret; auto. left; auto.
Qed.
Lemma safe_scouts c ini fs s : inv s ->
  safe true (mmap (scout c E ini) fs) (fun fs' s' => length fs' = length fs /\
    forall i f, nth_error fs i = Some f -> exists f', nth_error fs' i = Some f' /\ scouted c s s' f f') s.
Proof.
  intros I. eapply safe_post.
  - apply (safe_mmap E A true _ (fun f f' s' => scouted c s s' f f')); auto.
    + intros f f' s1 s2 G [H|(H1 & H2 & H3 & H4 & H5)]; [left; auto|]. right. split; auto. split; auto. split; auto.
      split; [eapply grow_good; eauto|eapply grow_honest; eauto].
    + intros f s1 Hf G1. eapply safe_post; [apply safe_scout; inv_of G1|].
      intros f' s2 _ [H|(Ha & Hb & Hc & Hd)]; [left; auto|]. right. split; auto. split; auto. split; auto. intros Hl. apply Hc. unfold live in *.
      pose proof (proj1 (proj2 G1)). lia.
  - cbv beta. intros fs' s' _ H2. split; [symmetry; apply (Forall2_length _ _ _ H2)|].
    intros i f Hf. destruct (Forall2_nth1 _ _ _ _ _ H2 Hf) as (f' & Hf' & H). eauto.
Qed.
Lemma scouts_own c s s' fs fs' : grow E A true s s' -> Forall (own s) fs -> length fs' = length fs ->
  (forall i f, nth_error fs i = Some f -> exists f', nth_error fs' i = Some f' /\ scouted c s s' f f') -> Forall (own s') fs'.
Proof.
  intros G HF HL HV. apply all_nth. intros i f' Hf'. destruct (nth_len fs fs' i f') as (f & Hf); auto.
  destruct (HV i f Hf) as (f2 & Hf2 & Hv). assert (f2 = f') by congruence. subst f2.
  destruct Hv as [[-> _]|(_ & _ & _ & H1 & H2)]; [|split; auto].
  rewrite Forall_forall in HF. destruct (HF f) as [H1 H2]; [eapply nth_error_In; eauto|]. split; [eapply grow_good; eauto|eapply grow_honest; eauto].
Qed.

Lemma owns_held s fs : Forall (own s) fs -> Forall (fun f => held s (src f)) fs.
Proof. apply Forall_impl. intros f [H _]. left; auto. Qed.
Lemma owns_srcs s fs : Forall (own s) fs -> Forall (good s) (map src fs).
Proof. intros H. apply Forall_map. revert H. apply Forall_impl. intros f H. apply H. Qed.
Lemma in_held s fs rs : Forall (own s) fs -> Forall (fun x => In x (map src fs)) rs -> Forall (held s) rs.
Proof. intros H. apply Forall_impl. intros r Hr. left. pose proof (owns_srcs _ _ H) as H1. rewrite Forall_forall in H1. auto. Qed.

(* the whole iteration *)
Lemma safe_bee_step M c ini fs s : inv s -> Forall (own s) fs ->
  safe true (bee_step M c E ini fs) (fun fs' s' => Forall (own s') fs' /\ length fs' = length fs) s.
Proof.
  intros I HF. unfold bee_step. eapply safe_bind; [apply safe_choices; auto|]. intros o1 s1 G1 [HL1 HI1]. cbv beta.
  assert (HF1 : Forall (own s1) fs).
  { revert HF. apply Forall_impl. intros f [H1 H2]. split; [eapply grow_good; eauto|eapply grow_honest; eauto]. }
  eapply safe_bind; [apply safe_bee_phase; [inv_of G1|apply owns_held; auto|eapply in_held; eauto]|].
  intros fs1 s2 G2 [HL2 HV2]. cbv beta. pose proof (phase_own _ _ _ _ _ G2 HF1 HL2 HV2) as HF2.
  eapply safe_bind; [apply safe_fitnesses; [inv_of G2|apply owns_srcs; auto]|]. intros ws s0 _ (-> & _). cbv beta zeta.
  eapply safe_bind; [apply safe_choices_num; inv_of G2|]. intros o2 s2' G2' [HLo HI2]. cbv beta.
  assert (HF2' : Forall (own s2') fs1).
  { revert HF2. apply Forall_impl. intros f [H1 H2]. split; [eapply grow_good; eauto|eapply grow_honest; eauto]. }
  eapply safe_bind; [apply safe_bee_phase; [inv_of G2'|apply owns_held; auto|eapply in_held; eauto]|].
  intros fs2 s3 G3 [HL3 HV3]. cbv beta. pose proof (phase_own _ _ _ _ _ G3 HF2' HL3 HV3) as HF3.
  eapply safe_post; [apply safe_scouts; inv_of G3|]. intros fs' s4 G4 [HL4 HV4].
  split; [eapply scouts_own; eauto|lia].
Qed.

Lemma safe_bee_run M c ini pop s : inv s -> Forall (good s) pop ->
  safe false (bee_run M c L E ini pop tt) (fun r s' => Forall (good s') (fst r) /\ Forall (honest E s') (fst r) /\ length (fst r) = length pop) s.
Proof.
  intros I HG. apply safe_weak. unfold bee_run. eapply safe_bind; [apply safe_fit_all; auto|]. intros p s1 G1 (-> & H1 & H2). cbv beta.
  eapply safe_bind.
  - apply (safe_iterate E A true _ (fun fs s' => Forall (own s') fs /\ length fs = length pop)); [inv_of G1| |].
    + split; [|rewrite map_length; auto]. apply Forall_map. apply Forall_forall. intros r Hr. rewrite Forall_forall in H1, H2. split; auto.
    + intros fs s2 I2 [HF HL]. eapply safe_post; [apply safe_bee_step; auto|]. intros fs' s3 _ (H3 & H4). split; auto. lia.
  - intros fs s2 G2 [HF HL]. cbv beta. apply safe_ret; [inv_of G2|]. cbn [fst]. split; [apply owns_srcs; auto|].
    split; [|rewrite map_length; auto]. apply Forall_map. revert HF. apply Forall_impl. intros f H. apply H.
Qed.
End Bees.

Lemma bees_contract M c : contract (bees M c) (fun _ _ => True).
Proof.
  split; [auto|]. intros L E A ini s pop i I HG _ _. destruct i. cbn [orun bees]. eapply safe_post; [apply safe_bee_run; auto|].
  intros r s' _ (H1 & H2 & _). auto.
Qed.
